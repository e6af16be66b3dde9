"""Transcribe the JSON command data of the repository into theories/ShippedData.v.

Usage: python3 gen_data.py <repo> > theories/ShippedData.v
"""
import glob, json, os, sys

def s(x):
    assert all(32 <= ord(c) < 127 for c in x)
    return '"' + x.replace('"', '""') + '"'

def lst(xs):
    return "[" + "; ".join(xs) + "]"

def flag(e):
    return "FEStr " + s(e) if isinstance(e, str) else "FEList " + lst(map(s, e))

def opt(e):
    a = e[-1]
    arg = "OAList " + lst(map(s, a)) if isinstance(a, list) else "OAStr " + s(a)
    return "mkOE %s (%s)" % (lst(map(s, e[:-1])), arg)

rel = "pash_annotations/parser/command_flag_option_info/data"
files = sorted(glob.glob(os.path.join(sys.argv[1], rel, "*.json")))
print("(** * The shipped command data")
print("    GENERATED by tools/gen_data.py from %s/*.json; do not edit. *)" % rel)
print("Require Import Verif.PyBase Verif.JsonData.\n")
names = []
for f in files:
    base = os.path.basename(f)[:-5]
    n = "data_" + base.lstrip("_")
    names.append((base + ".json", n))
    d = json.load(open(f))
    print("(** %s/%s.json *)" % (rel, base))
    print("Definition %s : json_data := mkJson" % n)
    print("  [" + ";\n   ".join(map(flag, d["flag"])) + "]")
    print("  [" + ";\n   ".join(map(opt, d["option"])) + "].\n")
print("(** The data directory %s *)" % rel)
print("Definition shipped_table : list (string * json_data) :=")
print("  [" + ";\n   ".join("(%s, %s)" % (s(a), b) for a, b in names) + "].\n")
print("""(** Reading from the shipped directory.  Simplification: command names that
    contain a slash or a null byte, or are too long for the file system, are
    treated as missing files. *)
Definition shipped_dir : data_dir := fun fn =>
  match dict_find shipped_table fn with
  | Some j => FFound j
  | None => FNotFound
  end.""")
