.nia.cache
__pycache__/
.nra.cache
.lia.cache
