*.vo
*.vos
*.vok
*.glob
.*.aux
.*.d
Makefile
Makefile.conf
.Makefile.d
.lia.cache
.nia.cache
