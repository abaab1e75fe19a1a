*.vo
*.vok
*.vos
*.glob
*.aux
.*.aux
.lia.cache
.nia.cache
.nra.cache
.Makefile.coq.d
Makefile
Makefile.conf
.Makefile.d
CoqMakefile*
