*.vo
*.vok
*.vos
*.glob
*.aux
Makefile
Makefile.conf
.Makefile.d
__pycache__
.lia.cache
.nra.cache
.nia.cache
