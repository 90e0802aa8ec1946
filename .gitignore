*.vo
*.vos
*.vok
*.glob
.*.aux
.nia.cache
.lia.cache
rocq/Makefile*
.Makefile*
.nra.cache
