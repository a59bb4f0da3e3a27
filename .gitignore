__pycache__/
.nia.cache
