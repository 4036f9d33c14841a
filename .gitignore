*.vo
*.vok
*.vos
*.glob
*.aux
.*.aux
*.cache
.Makefile.d
*.d
rocq/Makefile
rocq/Makefile.conf
