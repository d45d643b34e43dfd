*.vo
*.vos
*.vok
*.glob
*.aux
.lia.cache
.nia.cache
rocq/Makefile
rocq/Makefile.conf
rocq/.Makefile.d
rocq/.coqdeps.d
__pycache__
