.lia.cache
.nia.cache
*.aux
__pycache__/
