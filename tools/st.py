#!/usr/bin/env python3
"""st.py ID STATUS NOTE: record the status of a property and rebuild the manifest."""
import json, sys, subprocess, os
p = os.path.join(os.path.dirname(__file__), 'status.json')
d = json.load(open(p))
a = sys.argv[1:]
while a:
    d[a[0]] = [a[1], a[2]]
    a = a[3:]
open(p, 'w').write("{\n" + ",\n".join('%s: %s' % (json.dumps(k), json.dumps(d[k])) for k in sorted(d)) + "\n}\n")
subprocess.check_call([sys.executable, os.path.join(os.path.dirname(__file__), 'gen_manifest.py')])
