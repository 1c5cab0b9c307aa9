*.vo
*.vok
*.vos
*.glob
*.aux
.*.aux
rocq/Makefile
rocq/Makefile.conf
.Makefile.d
rocq/.Makefile.d
rocq/.lia.cache
.lia.cache
.nia.cache
__pycache__/
