*.vo
*.vok
*.vos
*.glob
*.aux
.*.aux
.lia.cache
.nia.cache
Makefile*
.Makefile*
*.d
rocq/.nra.cache
