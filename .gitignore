rocq/.lia.cache
rocq/.nia.cache
*.nra.cache
.nra.cache
.lia.cache
