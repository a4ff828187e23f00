rocq/.lia.cache
rocq/.nia.cache
*.cache
