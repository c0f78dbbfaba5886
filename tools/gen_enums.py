"""Generate rocq/theories/EnumData.v: the numbers of the enumerators in utilities/ConfigNames.h,
stencils/Stencil.h and utilities/Logging.h."""
import re
L = '/repo/src/library/natrium/'
def nocomment(t):
    t = re.sub(r'/\*.*?\*/', lambda m: re.sub(r'[^\n]', ' ', m.group(0)), t, flags=re.S)
    return re.sub(r'//[^\n]*\n', '\n', t)
out = ['(** GENERATED by tools/gen_enums.py from utilities/ConfigNames.h, stencils/Stencil.h,\n    utilities/Logging.h; do not edit.  The numbers of the enumerators. *)']
for f in ['utilities/ConfigNames.h', 'stencils/Stencil.h', 'utilities/Logging.h']:
    t = nocomment(open(L + f).read())
    for m in re.finditer(r'enum (\w+)\s*\{([^}]*)\}', t):
        a = t.count('\n', 0, m.start()) + 1; b = t.count('\n', 0, m.end()) + 1
        out.append('\n(** %s:%d-%d %s *)' % (f.split('/')[1], a, b, m.group(1)))
        names = [x.strip() for x in m.group(2).split(',') if x.strip()]
        assert not any('=' in n for n in names[1:]), names
        for i, n in enumerate(names):
            out.append('Definition N_%s : nat := %d.' % (n.split('=')[0].strip(), i))
open('/verif/rocq/theories/EnumData.v', 'w').write('\n'.join(out) + '\n')
