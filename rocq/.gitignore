*.vo
*.vok
*.vos
*.glob
*.aux
Makefile
Makefile.conf
.Makefile.d
*.d
.*.cache
.coqdeps.d
.Makefile.coq.d
