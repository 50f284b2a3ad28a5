*.vo
*.vok
*.vos
*.glob
*.aux
Makefile
Makefile.conf
.Makefile.d
*.d
.lia.cache
Makefile.coq
Makefile.coq.conf
.Makefile.coq.d
.nia.cache
