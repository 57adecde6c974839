*.vo
*.vok
*.vos
*.glob
.*.aux
*.aux
Makefile
Makefile.conf
.Makefile.d
.lia.cache
.coqdeps.d
.nra.cache
.lia.cache
.nia.cache
