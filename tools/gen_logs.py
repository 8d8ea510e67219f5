"""Writes rocq/theories/Logs.v: the logs /repo/tests/*.xml as lists of events (the elements below the root).
Usage: gen_logs.py /repo/tests > rocq/theories/Logs.v
       gen_logs.py /repo/tests texts > rocq/theories/LogTexts.v   (the same files as texts)"""
import glob
import os
import sys
import xml.etree.ElementTree as ET


def text(s):
    if all(32 <= ord(c) < 127 for c in s):
        return 't_ "%s"' % s.replace('"', '""')
    return "[%s]" % "; ".join(str(ord(c)) for c in s)


def event(e):
    attrs = "; ".join("(%s, %s)" % (text(k), text(v)) for k, v in e.attrib.items())
    return "mkEvent (%s) [%s]" % (text(e.tag), attrs)


paths = sorted(glob.glob(os.path.join(sys.argv[1], "*.xml")))
if sys.argv[2:] == ["texts"]:
    print("(** The files tests/*.xml, as texts. Written by tools/gen_logs.py. *)")
    print("From Verif Require Import Base Parse Text.")
    print("From Coq Require Import String List ZArith.")
    print("Import ListNotations.\nOpen Scope list_scope.\nOpen Scope Z_scope.\n")
    names = []
    for path in paths:
        name = "text_" + os.path.basename(path)[:10]
        names.append(name)
        print("(** tests/%s. *)" % os.path.basename(path))
        content = open(path).read()
        parts = [content[i:i + 200] for i in range(0, len(content), 200)]
        print("Definition %s : text :=\n  %s." % (name, " ++\n  ".join(text(x) for x in parts)))
    print("Definition test_texts : list text := [%s]." % "; ".join(names))
    sys.exit()
print("(** The logs tests/*.xml, as lists of events. Written by tools/gen_logs.py. *)")
print("From Verif Require Import Base Parse Text Event.")
print("From Coq Require Import String List ZArith.")
print("Import ListNotations.\nOpen Scope list_scope.\nOpen Scope Z_scope.\n")
names = []
for path in paths:
    name = "log_" + os.path.basename(path)[:10]
    names.append(name)
    root = ET.parse(path).getroot()
    print("(** tests/%s. *)" % os.path.basename(path))
    print("Definition %s : list event :=\n  [%s]." % (name, ";\n   ".join(event(e) for e in root)))
print("Definition test_logs : list (list event) := [%s]." % "; ".join(names))
