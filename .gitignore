*.lia.cache
*.nra.cache
.lia.cache
.nra.cache
.nia.cache
.lia.cache
.nra.cache
