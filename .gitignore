.lia.cache
*.vo
*.vos
*.vok
*.glob
*.aux
.*.aux
Makefile
Makefile.conf
.Makefile.d
.coqdeps.d
.nia.cache
.nra.cache
