.nia.cache
.nra.cache
.lia.cache
