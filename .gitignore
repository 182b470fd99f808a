Makefile
Makefile.conf
*.vo
*.vok
*.vos
*.glob
.*.aux
.Makefile.d
*.d
.lia.cache
.nia.cache
