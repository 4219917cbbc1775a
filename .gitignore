*.vo
*.vok
*.vos
*.glob
*.aux
.*.aux
.lia.cache
.nra.cache
.nia.cache
*.d
Makefile
Makefile.conf
.Makefile.d
CoqMakefile*
