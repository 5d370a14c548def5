.lia.cache
*.vo
*.vos
*.vok
*.glob
*.aux
Makefile
Makefile.conf
.Makefile.d
.nia.cache
.lia.cache
.nra.cache
