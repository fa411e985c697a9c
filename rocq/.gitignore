*.aux
*.cache
*.d
*.glob
*.vo
*.vok
*.vos
.Makefile*
.Makefile.d
.lia.cache
.nra.cache
Makefile
Makefile*
Makefile.conf
