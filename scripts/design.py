"""Write DESIGN.md from design.md, MANIFEST.json and assumptions.json."""
import json, os
here = os.path.dirname(os.path.abspath(__file__))
top = os.path.dirname(here)
text = open(os.path.join(here, "design.md")).read()
claims = json.load(open(os.path.join(top, "MANIFEST.json")))["claims"]
ax = json.load(open(os.path.join(here, "assumptions.json")))
short = {"ClassicalDedekindReals.sig_forall_dec": "A1", "ClassicalDedekindReals.sig_not_dec": "A2",
         "FunctionalExtensionality.functional_extensionality_dep": "A3", "Classical_Prop.classic": "A4"}
th = "\n".join("* %s (%s): %s" % (c["property"], c["status"], ", ".join("`%s`" % t for t in c["theorems"])) for c in claims)
groups = {}
for t, a in sorted(ax.items()):
    groups.setdefault(", ".join(sorted(short[x] for x in a)) or "none (closed under the global context)", []).append(t)
missing = [t for c in claims for t in c["theorems"] if t not in ax]
assert not missing, missing
out = []
for g in sorted(groups, key=lambda g: (g[0] != "n", len(g))):
    out.append("**%s** (%d theorems): %s\n" % (g, len(groups[g]), ", ".join("`%s`" % t for t in groups[g])))
text = text.replace("@PLAN@\n", "").replace("@THEOREMS@", th).replace("@ASSUMPTIONS@", "\n".join(out))
open(os.path.join(top, "DESIGN.md"), "w").write(text)
