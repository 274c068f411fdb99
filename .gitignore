*.vo
*.vok
*.vos
*.glob
.*.aux
*.aux
.lia.cache
.nra.cache
.nia.cache
rocq/Makefile
rocq/Makefile.conf
rocq/.Makefile.d
