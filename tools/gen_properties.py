#!/usr/bin/env python3
"""Generate rocq/theories/PropertiesX.v from the marked lemmas of XProps.v.

A lemma preceded by a line  (*@ Name *)  is restated as Theorem Name, proved by
`exact` and followed by Print Assumptions; (*@E Name *) becomes an Example.
Lines  (*% text *)  are copied as comments, (*! imports line *) as imports.
"""
import re, sys, os
root = os.path.join(os.path.dirname(os.path.abspath(__file__)), '..', 'rocq', 'theories')
for f in sys.argv[1:]:
    src = open(os.path.join(root, f + 'Props.v')).read()
    out = []
    title = re.search(r'\(\*T (.*?) \*\)', src).group(1)
    imports = re.findall(r'\(\*! (.*?) \*\)', src)
    out.append(f'(** * {title} *)\n')
    out += imports
    out.append(f'From Verif Require Import {f}Props.')
    out.append('Import ListNotations.\nOpen Scope Z_scope.\n')
    pat = re.compile(r'\(\*% (?P<c>.*?) \*\)|\(\*@(?P<e>E?) (?P<n>\S+) \*\)\s*Lemma (?P<l>\S+) (?P<s>.*?)\.\nProof', re.S)
    for m in pat.finditer(src):
        if m.group('c') is not None:
            out.append(f'(** {m.group("c")} *)')
        else:
            kind = 'Example' if m.group('e') else 'Theorem'
            out.append(f'{kind} {m.group("n")} {m.group("s")}.\nProof. exact {m.group("l")}. Qed.')
            if not m.group('e'):
                out.append(f'Print Assumptions {m.group("n")}.')
            out.append('')
    open(os.path.join(root, f'Properties{f}.v'), 'w').write('\n'.join(out))
