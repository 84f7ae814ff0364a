*.vo
*.vok
*.vos
*.glob
.*.aux
.lia.cache
.nia.cache
Makefile
Makefile.conf
.Makefile.d
.CoqMakefile.d
rocq/.nra.cache
.nra.cache
.lia.cache
