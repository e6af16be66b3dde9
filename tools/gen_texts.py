"""Copy the text of the JSON command data of the repository into theories/ShippedText.v.

Usage: python3 gen_texts.py <repo> > theories/ShippedText.v
"""
import glob, os, sys

rel = "pash_annotations/parser/command_flag_option_info/data"
files = sorted(glob.glob(os.path.join(sys.argv[1], rel, "*.json")))
print("(** * The texts of the shipped command data")
print("    GENERATED by tools/gen_texts.py: the bytes of %s/*.json, quotation marks doubled; do not edit. *)" % rel)
print("Require Import Verif.PyBase.\n")
names = []
for f in files:
    base = os.path.basename(f)[:-5]
    n = "text_" + base.lstrip("_")
    names.append((base + ".json", n))
    t = open(f, "rb").read().decode("ascii")
    assert "\r" not in t
    print("(** %s/%s.json *)" % (rel, base))
    print('Definition %s : string := "%s".\n' % (n, t.replace('"', '""')))
print("(** The files of the directory *)")
print("Definition shipped_texts : list (string * string) :=")
print("  [" + ";\n   ".join('("%s", %s)' % (a, b) for a, b in names) + "].")
print("Definition shipped_text : string -> option string := dict_find shipped_texts.")
