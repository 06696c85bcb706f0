#!/usr/bin/env python3
"""note.py ID TEXT: set the manifest note of a property."""
import json, sys, os
p = os.path.join(os.path.dirname(os.path.abspath(__file__)), "notes.json")
n = json.load(open(p)); n[sys.argv[1]] = {"note": sys.argv[2]}
json.dump(n, open(p, "w"), indent=1)
