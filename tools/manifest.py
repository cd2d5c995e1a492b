#!/usr/bin/env python3
"""Writes MANIFEST.json from the Cxx_* theorems of the Properties*.v files and the notes below."""
import glob, json, os, re

ROOT = os.path.join(os.path.dirname(__file__), "..")
NOTES = json.load(open(os.path.join(ROOT, "tools", "notes.json")))

theorems = {}
for path in sorted(glob.glob(os.path.join(ROOT, "rocq/theories/Properties*.v"))):
    for m in re.finditer(r"^(?:Theorem|Corollary) (C\d+)_(\w+)", open(path).read(), re.M):
        theorems.setdefault(m[1], []).append(m[1] + "_" + m[2])

mods = sorted(os.path.basename(p)[:-2] for p in glob.glob(os.path.join(ROOT, "rocq/theories/Properties*.v")))
with open(os.path.join(ROOT, "rocq/theories/Assumptions.v"), "w") as f:
    f.write("(** Generated by tools/manifest.py: the assumptions of every final theorem. *)\n\n")
    f.write("From Verif Require Import " + " ".join(mods) + ".\n\n")
    # One definition using them all: Print Assumptions on it covers every theorem at once.
    names = [n for pid in sorted(theorems) for n in theorems[pid]]
    f.write("Definition all_theorems :=\n  (" + ",\n   ".join("@" + n for n in names) + ").\n\nPrint Assumptions all_theorems.\n")

claims = []
for line in open(os.path.join(ROOT, "properties.jsonl")):
    pid = json.loads(line)["id"]
    names = theorems.get(pid, [])
    note = NOTES.get(pid, {})
    if "status" in note:
        status = note["status"]
    elif not names or any(n.endswith("_partial") for n in names):
        status = "partial"
    else:
        status = "proved"
    claims.append({"property": pid, "status": status, "theorems": names, "note": note.get("note", "")})
json.dump({"claims": claims}, open(os.path.join(ROOT, "MANIFEST.json"), "w"), indent=1)
for c in claims:
    if not c["theorems"]:
        print("no theorem:", c["property"])
