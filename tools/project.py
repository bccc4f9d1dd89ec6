#!/usr/bin/env python3
"""List every file under rocq/theories in rocq/_CoqProject."""
import os
root = os.path.dirname(os.path.dirname(os.path.abspath(__file__))) + '/rocq/'
out = ['-Q theories Verif']
for d in ['Model', 'Spec', 'Proofs', 'Props']:
    out += sorted('theories/%s/%s' % (d, f) for f in os.listdir(root + 'theories/' + d) if f.endswith('.v'))
open(root + '_CoqProject', 'w').write('\n'.join(out) + '\n')
