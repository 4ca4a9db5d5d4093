.lia.cache
*.glob
