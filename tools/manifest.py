"""Writes MANIFEST.json from the table below."""
import json
C = []
def c(p, status, thms, note=""): C.append({"property": p, "status": status, "theorems": thms, "note": note})
exec(open(__file__.replace('manifest.py', 'manifest_table.py')).read())
json.dump({"claims": C}, open(__file__.replace('tools/manifest.py', 'MANIFEST.json'), 'w'), indent=1)
