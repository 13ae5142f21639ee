.lia.cache
*.nia.cache
