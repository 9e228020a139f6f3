*.vo
*.vok
*.vos
*.glob
*.aux
.*.aux
.coqdeps.d
.Makefile.d
Makefile
Makefile.conf
.lia.cache
.nia.cache
.nra.cache
