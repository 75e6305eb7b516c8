*.vo
*.vok
*.vos
*.glob
.*.aux
.lia.cache
.Makefile.d
Makefile
Makefile.conf
.nra.cache
.lia.cache
.nia.cache
