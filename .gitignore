*.vo
*.vok
*.vos
*.glob
*.aux
.*.aux
Makefile
Makefile.conf
.Makefile.d
Makefile.d
.nia.cache
.lia.cache
.nra.cache
.coqdeps.d
.CoqMakefile.d
