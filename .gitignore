rocq/.lia.cache
*.lia.cache
