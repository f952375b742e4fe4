
.nra.cache
*.cache
