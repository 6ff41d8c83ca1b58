*.vo
*.vok
*.vos
*.glob
*.aux
.*.aux
.coqdeps.d
.Makefile.d
rocq/Makefile
rocq/Makefile.conf
rocq/.lia.cache
.lia.cache
.nia.cache
