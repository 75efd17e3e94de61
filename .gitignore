*.vo
*.vos
*.vok
*.glob
*.aux
.*.aux
Makefile
Makefile.conf
.Makefile.d
rocq/.lia.cache
.lia.cache
.nia.cache
.nra.cache
