.nra.cache
.lia.cache
.csdp.cache
