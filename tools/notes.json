{"full":[]}
