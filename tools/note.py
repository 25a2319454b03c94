#!/usr/bin/env python3
"""usage: note.py Cxx 'note' ... : set notes, regenerate the manifest"""
import json, sys, subprocess, os
p = os.path.join(os.path.dirname(__file__), "notes.json")
d = json.load(open(p))
a = sys.argv[1:]
for k, v in zip(a[::2], a[1::2]):
    d.setdefault(k, {})["note"] = v
json.dump(d, open(p, "w"), indent=0)
subprocess.run([sys.executable, os.path.join(os.path.dirname(__file__), "manifest.py")])
