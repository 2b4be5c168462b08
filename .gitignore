.nra.cache
.lia.cache
*.vo
*.vok
*.vos
*.glob
.*.aux
Makefile
Makefile.conf
.Makefile.d
