.nra.cache
.lia.cache
.nia.cache
.*.cache
