.lia.cache
.nra.cache
.csdp.cache
__pycache__
*.pyc
.nia.cache
