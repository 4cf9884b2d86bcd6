#!/usr/bin/env python3
"""Embeds the data files of /repo verbatim as Coq strings (D_*.v)."""
import os
R = "/repo/ries/"
O = os.path.join(os.path.dirname(os.path.abspath(__file__)), "..", "rocq", "theories")
def lit(path):
    b = open(path, "rb").read()
    s = b.decode("ascii")
    assert "\r" not in s
    return '"' + s.replace('"', '""') + '"'
def emit(name, body):
    with open(os.path.join(O, name + ".v"), "w", newline="") as f:
        f.write("(** Generated by tools/gen_data.py. *)\nFrom Coq Require Import String List.\nImport ListNotations.\nOpen Scope string_scope.\n\n" + body)
p = "constituents/nist_elements/elements.txt"
# split after whole lines: one long literal overflows the stack of the parser
lines = lit(R + p)[1:-1].splitlines(keepends=True)
chunks = ["".join(lines[i:i+100]) for i in range(0, len(lines), 100)]
body = "".join('Definition elements_%02d : string := "%s".\n\n' % (i, c) for i, c in enumerate(chunks))
body = "(** ries/%s, verbatim, in consecutive pieces of 100 lines. *)\n" % p + body
body += "Definition elements_pieces : list string :=\n  [" + "; ".join("elements_%02d" % i for i in range(len(chunks))) + "].\n"
body += "Definition elements_txt : string := fold_right append EmptyString elements_pieces.\n"
emit("D_Elements", body)
p = "constituents/geant4_densities/element_densities.txt"
emit("D_Densities", "(** ries/%s, verbatim. *)\nDefinition element_densities_txt : string := %s.\n" % (p, lit(R + p)))
body = ""
names = []
for z in range(1, 93):
    p = "nonresonant/nist_xrmac/%02d.txt" % z
    body += "(** ries/%s, verbatim. *)\nDefinition xrmac_%02d : string := %s.\n\n" % (p, z, lit(R + p))
    names.append("xrmac_%02d" % z)
body += "(** The files for Z = 1, ..., 92, in this order. *)\nDefinition xrmac_files : list string :=\n  [" + ";\n   ".join("; ".join(names[i:i+8]) for i in range(0, 92, 8)) + "].\n"
emit("D_Xrmac", body)
# the dictionary room_temperature_T_D (all values have the fractional part .0)
import re
src = open(R + "resonance/debye_model.py").read()
first = src[:src.index("room_temperature_T_D = {")].count("\n") + 1
block = src[src.index("room_temperature_T_D = {"):]
block = block[:block.index("}")]
last = first + block.count("\n")
items = re.findall(r'"(\w+)": (None|[0-9]+\.0),', block)
assert len(items) == block.count(":")
with open(os.path.join(O, "D_Debye.v"), "w") as f:
    f.write("(** Generated by tools/gen_data.py. *)\nFrom Coq Require Import String List ZArith.\nImport ListNotations.\nOpen Scope string_scope.\nOpen Scope Z_scope.\n\n"
      "(** ries/resonance/debye_model.py:%d-%d, [room_temperature_T_D]: all values are whole numbers of\n    kelvin or [None]. *)\nDefinition room_temperature_T_D : list (string * option Z) :=\n  [" % (first, last)
      + ";\n   ".join('("%s", %s)' % (k, "None" if v == "None" else "Some " + v[:-2]) for k, v in items) + "].\n")
