*.vo
*.vos
*.vok
*.glob
*.aux
.lia.cache
.Makefile.d
Makefile
Makefile.conf
.nra.cache
.nia.cache
