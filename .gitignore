*.aux
*.glob
*.vo
*.vok
*.vos
.lia.cache
.nia.cache
__pycache__/
rocq/.Makefile.d
rocq/CoqMakefile*
rocq/Makefile
rocq/Makefile.conf
.nra.cache
.lia.cache
