*.vo
*.vos
*.vok
*.glob
.*.aux
.lia.cache
Makefile
Makefile.conf
.Makefile.d
.nra.cache
.lra.cache
.nia.cache
