*.vo
*.vok
*.vos
*.glob
.*.aux
*.aux
rocq/Makefile*
rocq/.Makefile.d
rocq/.nra.cache
rocq/.lia.cache
rocq/.nia.cache
rocq/.lra.cache
