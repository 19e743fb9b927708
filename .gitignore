*.vo
*.vos
*.vok
*.glob
*.aux
.*.aux
*.cache
.lia.cache
.nra.cache
rocq/Makefile
rocq/Makefile.conf
rocq/.Makefile.d
__pycache__/
