#!/usr/bin/env python3
"""Rewrites rocq/_CoqProject with all files under theories (flags untouched)."""
import glob, os
os.chdir('/verif/rocq')
fs = sorted(glob.glob('theories/*.v'))
open('_CoqProject', 'w').write('-Q theories Verif\n' + ''.join(f + '\n' for f in fs))
