*.vo
*.vok
*.vos
*.glob
*.aux
.*.aux
.lia.cache
.nia.cache
Makefile
Makefile.conf
.Makefile.d
rocq/Makefile*
.nra.cache
*.cache
