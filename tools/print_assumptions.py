#!/usr/bin/env python3
"""Regenerate the Print Assumptions block at the end of every *Props.v file."""
import glob, os, re
here = os.path.join(os.path.dirname(__file__), '..', 'rocq', 'theories')
MARK = '(** * Assumptions of the theorems above *)\n'
for p in sorted(glob.glob(os.path.join(here, '*Props.v'))):
    s = open(p).read()
    s = s.split(MARK)[0].rstrip() + '\n'
    names = re.findall(r'^Theorem (\w+)', s, re.M)
    s += '\n' + MARK + ''.join(f'Print Assumptions {n}.\n' for n in names)
    open(p, 'w').write(s)
