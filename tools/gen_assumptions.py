"""Compile the property files and list what Print Assumptions says for each theorem (ASSUMPTIONS.md)."""
import glob, os, re, subprocess, tempfile

T = "/verif/rocq/theories"
out = ["# What `Print Assumptions` lists for each theorem", "",
       "Generated by tools/gen_assumptions.py from the property files.", ""]
for f in sorted(glob.glob(T + "/Props*.v")):
    names = re.findall(r"^Print Assumptions (\w+)\.", open(f).read(), re.M)
    with tempfile.TemporaryDirectory() as d:
        text = subprocess.run(["coqc", "-Q", T, "Verif", "-o", d + "/" + os.path.basename(f) + "o", f],
                              capture_output=True, text=True, check=True).stdout
    parts = re.split(r"^(?=Closed under the global context|Axioms:)", text, flags=re.M)
    parts = [p for p in parts if p.startswith(("Closed", "Axioms:"))]
    assert len(parts) == len(names), (f, len(parts), len(names))
    out += ["## " + os.path.basename(f), ""]
    for n, p in zip(names, parts):
        ax = re.findall(r"^([A-Z][\w.]*)\s*(?::|$)", p.split("\n", 1)[1] if "\n" in p else "", re.M)
        ax = [a for a in ax if a != "Axioms"]
        out.append("* `%s`: %s" % (n, "closed under the global context" if p.startswith("Closed") else ", ".join(ax)))
    out.append("")
open("/verif/ASSUMPTIONS.md", "w").write("\n".join(out))
