*.nra.cache
*.lia.cache
.nra.cache
.lia.cache
