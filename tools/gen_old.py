"""Copy the text of the records of the earlier annotation language into theories/OldText.v.

Usage: python3 gen_old.py <repo> > theories/OldText.v
"""
import glob, os, re, sys

rel = "pash_annotations/old_annotations"
files = sorted(glob.glob(os.path.join(sys.argv[1], rel, "*.json")))
print("(** * The texts of the records of the earlier annotation language")
print("    GENERATED by tools/gen_old.py: the bytes of %s/*.json, quotation marks doubled," % rel)
print("    carriage returns before newlines left out (as Python does in text mode); do not edit. *)")
print("Require Import Verif.PyBase.\n")
names = []
for f in files:
    base = os.path.basename(f)
    n = "old_" + re.sub(r"\W", "_", base[:-5])
    names.append((base, n))
    t = open(f, "rb").read().decode("ascii").replace("\r\n", "\n")
    assert "\r" not in t
    print("(** %s/%s *)" % (rel, base))
    print('Definition %s : string := "%s".\n' % (n, t.replace('"', '""')))
print("(** The files of the directory *)")
print("Definition old_texts : list (string * string) :=")
print("  [" + ";\n   ".join('("%s", %s)' % (a, b) for a, b in names) + "].")
