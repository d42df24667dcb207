*.vo
*.vok
*.vos
*.glob
*.aux
.*.aux
rocq/Makefile
rocq/Makefile.conf
rocq/.Makefile.d
rocq/.lia.cache
.lia.cache
rocq/.nra.cache
rocq/.nia.cache
.nia.cache
.lia.cache
.nra.cache
