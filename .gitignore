*.vo
*.vok
*.vos
*.glob
*.aux
.*.aux
*.d
Makefile
Makefile.conf
.Makefile.d
.lia.cache
.nia.cache
.nra.cache
.coqdeps.d
__pycache__
