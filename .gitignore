.nra.cache
.lia.cache
.lqa.cache
*.cache
