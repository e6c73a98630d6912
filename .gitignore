*.aux
*.glob
*.vo
*.vok
*.vos
.lia.cache
.nia.cache
rocq/.Makefile.d
rocq/Makefile
rocq/Makefile.conf
.nra.cache
