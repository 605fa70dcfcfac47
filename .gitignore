.lia.cache
*.vo
*.vok
*.vos
*.glob
*.aux
.*.aux
Makefile
Makefile.conf
.Makefile.d
.nia.cache
.nra.cache
.lra.cache
