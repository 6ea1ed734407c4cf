__pycache__/
.lia.cache
.nra.cache
