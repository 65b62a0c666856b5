#!/usr/bin/env python3
"""Embed source files as string literals of type `source`.

usage: embed.py /repo > rocq/theories/RustSource.v
"""
import sys, os
root = sys.argv[1]
FILES = ['src/range.rs', 'src/lib.rs', 'src/mii.rs', 'src/ram.rs', 'src/gear.rs', 'src/pigz.rs', 'src/gzip.rs', 'src/fastcdc.rs', 'src/bup.rs',
         'src/buzhash.rs', 'src/buzhash_table.rs', 'src/gear_table/gear32.rs', 'src/gear_table/gear64.rs', 'src/zpaq.rs', 'src/zstd.rs',
         'tests/cuts.rs', 'tests/cuts_qc.rs', 'tests/fastcdc.rs', 'tests/qc_bup.rs']
w = sys.stdout.write
w('(** * RustSource: source files of the crate and of its tests, byte by byte (a quote is doubled, as in every Coq string).\n\n'
  '    Written by tools/embed.py; do not edit. *)\n\nFrom Verif Require Import Base RustLex.\nOpen Scope source_scope.\n')
for f in FILES:
    s = open(os.path.join(root, f), encoding='utf-8', newline='').read()
    w('\nDefinition %s : source :=\n"%s".\n' % (f[:-3].replace('/', '_') + '_rs', s.replace('"', '""')))
