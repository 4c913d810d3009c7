*.vo
*.vok
*.vos
*.glob
.*.aux
*.d
.Makefile.d
rocq/Makefile
rocq/Makefile.conf
.lia.cache
.nia.cache
