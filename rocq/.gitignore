*.vo
*.vok
*.vos
*.glob
*.aux
.*.aux
*.d
.*.d
Makefile
Makefile.conf
.Makefile.d
.lia.cache
.nia.cache
