*.vo
*.vos
*.vok
*.glob
*.aux
.*.aux
.lia.cache
.nra.cache
.Makefile.d
Makefile
Makefile.conf
__pycache__/
*.cache
