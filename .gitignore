*.vo
*.vok
*.vos
*.glob
*.aux
.*.aux
.*.d
*.d
.lia.cache
.nia.cache
Makefile
Makefile.conf
.Makefile.d
.nra.cache
.lia.cache
.nia.cache
