*.vo
*.vos
*.vok
*.glob
*.aux
.*.aux
*.d
rocq/Makefile
rocq/Makefile.conf
.lia.cache
.nia.cache
.nra.cache
