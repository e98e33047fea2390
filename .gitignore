rocq/.lia.cache
rocq/.nia.cache
*.vo
*.vok
*.vos
*.glob
*.aux
rocq/Makefile*
rocq/.Makefile.d
rocq/.nra.cache
*.cache
