#!/usr/bin/env python3
"""Merge notes given as JSON on stdin into notes.json."""
import json, os, sys
p = os.path.join(os.path.dirname(os.path.abspath(__file__)), "notes.json")
n = json.load(open(p)); n.update(json.load(sys.stdin))
json.dump(n, open(p, "w"), indent=1, sort_keys=True)
