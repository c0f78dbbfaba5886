"""Generate rocq/theories/ConfigData.v from solver/SolverConfiguration.{h,cpp},
utilities/ConfigNames.h and stencils/Stencil.h.

Extracted: the declare_entry calls of the constructor, the enumerators, and for every
setter and getter the subsections entered, the key, the switch / if chain and whether the
call is inside try/catch with the matching leave_subsection calls.
"""
import re, sys
L = '/repo/src/library/natrium/'
H = open(L + 'solver/SolverConfiguration.h').read()
C = open(L + 'solver/SolverConfiguration.cpp').read()

def nocomment(t):
    t = re.sub(r'/\*.*?\*/', lambda m: re.sub(r'[^\n]', ' ', m.group(0)), t, flags=re.S)
    return re.sub(r'//[^\n"]*\n', lambda m: ' ' * (len(m.group(0)) - 1) + '\n', t)

# ---- enums
enums, number = {}, {}
for f in ['utilities/ConfigNames.h', 'stencils/Stencil.h']:
    t = nocomment(open(L + f).read())
    for m in re.finditer(r'enum (\w+)\s*\{([^}]*)\}', t):
        names = [x.strip() for x in m.group(2).split(',') if x.strip()]
        enums[m.group(1)] = names
        for i, n in enumerate(names):
            n = n.split('=')[0].strip()
            number[n] = i

def line(t, pos):
    return t.count('\n', 0, pos) + 1

def coqstr(s):
    return '"%s"' % s

# ---- numbers
def coqnum(s):
    """exact real for a decimal literal"""
    m = re.match(r'^(-?)(\d+)(?:\.(\d*))?(?:e([+-]?\d+))?$', s.strip())
    sign, a, b, e = m.group(1), m.group(2), m.group(3) or '', int(m.group(4) or 0)
    digits = str(int((a + b) or '0')); e -= len(b)
    v = int(digits)
    while v and v % 10 == 0 and e < 0:
        v //= 10; e += 1
    if v == 0: return '0'
    if e >= 0: r = '%d' % v + (' * 10^%d' % e if e else '')
    else: r = '%d / 10^%d' % (v, -e)
    return '(%s)' % (('- (%s)' % r) if sign else r) if (sign or e) else r

# ---- declare_entry
CT = nocomment(C)
ctor_start = CT.index('SolverConfiguration::SolverConfiguration() {')
ctor_end = CT.index('SolverConfiguration::SolverConfiguration(const std::string')
ctor = CT[ctor_start:ctor_end]
pos, path, decl = 0, [], []
tok = re.compile(r'enter_subsection\("([^"]*)"\)|leave_subsection\(\)|declare_entry\(')
STR = r'"((?:[^"\\]|\\.)*)"'
for m in tok.finditer(ctor):
    if m.group(1) is not None: path.append(m.group(1)); continue
    if m.group(0).startswith('leave'): path.pop(); continue
    i = m.end(); depth = 1; instr = False
    while depth:
        c = ctor[i]
        if instr:
            if c == '\\': i += 1
            elif c == '"': instr = False
        elif c == '"': instr = True
        elif c == '(': depth += 1
        elif c == ')': depth -= 1
        i += 1
    body = ctor[m.end():i - 1]
    mm = re.match(r'\s*' + STR + r'\s*,\s*' + STR + r'\s*,\s*dealii::Patterns::(\w+)\s*\((.*)', body, re.S)
    key, default, pat, rest = mm.groups()
    # arguments of the pattern
    depth = 1; j = 0; instr = False
    while depth:
        c = rest[j]
        if instr:
            if c == '"': instr = False
        elif c == '"': instr = True
        elif c == '(': depth += 1
        elif c == ')': depth -= 1
        j += 1
    args = rest[:j - 1].strip()
    if pat == 'Double':
        a = [x.strip() for x in args.split(',')] if args else []
        a = ['1' if x == '1 + 1e-50' else x for x in a]   # 1 + 1e-50 = 1 in double
        lo = 'Some %s' % coqnum(a[0]) if a else 'None'
        hi = 'Some %s' % coqnum(a[1]) if len(a) > 1 else 'None'
        P = 'PDouble (%s) (%s)' % (lo, hi); D = 'TDec %s' % coqnum(default)
    elif pat == 'Integer':
        a = [x.strip() for x in args.split(',')]
        P = 'PInteger %s %s' % (a[0], a[1] if len(a) > 1 else 'int_max'); D = 'TInt %s' % default
    elif pat == 'Bool': P = 'PBool'; D = 'TBool ' + default
    elif pat == 'DirectoryName': P = 'PAny'; D = 'TStr ' + coqstr(default)
    elif pat == 'Selection':
        s = ''.join(re.findall(STR, args))
        P = 'PSelection [%s]' % '; '.join(coqstr(x) for x in s.split('|')); D = 'TStr ' + coqstr(default)
    elif pat == 'List':
        ia = re.match(r'dealii::Patterns::Double\((.*)\)', args).group(1).split(',')
        P = 'PList %s %s' % (coqnum(ia[0]), coqnum(ia[1]))
        D = 'TList [%s]' % '; '.join(coqnum(x) for x in default.split(','))
    else: raise Exception(pat)
    l0 = line(C, ctor_start + m.start())
    decl.append((list(path), key, P, D, l0))
assert path == []

# ---- functions of the header
HT = nocomment(H)
cls = HT.index('class SolverConfiguration')
funs = []
for m in re.finditer(r'\n\s*((?:const )?[\w:<>]+)\s+((?:get|set|is|has)\w*)\(([^)]*)\)\s*\{', HT[cls:]):
    st = cls + m.end(); depth = 1; i = st
    instr = False
    while depth:
        c = HT[i]
        if instr:
            if c == '\\': i += 1
            elif c == '"': instr = False
        elif c == '"': instr = True
        elif c == '{': depth += 1
        elif c == '}': depth -= 1
        i += 1
    s0 = cls + m.start() + 1
    while HT[s0] in ' \t\n': s0 += 1
    funs.append(dict(ret=m.group(1), name=m.group(2), args=m.group(3).strip(), body=HT[st:i - 1],
                     l0=line(H, s0), l1=line(H, i)))

def entered(b):
    return re.findall(r'enter_subsection\("([^"]*)"\)', b)

setters, getters = {}, {}
special = []
for f in funs:
    b = f['body']; path = entered(b); n = len(path)
    leaves = b.count('leave_subsection()')
    if f['name'] in ('setEmbeddedDealIntegratorParameters', 'setPrandtlNumber', 'setSutherlandLaw', 'setWallNormalCoordinates', 'getWallNormalCoordinates'):
        special.append(f); f['path'] = path; f['leaves'] = leaves; continue
    if f['name'].startswith('set'):
        key = set(re.findall(r'\bset\(\s*"([^"]*)"', b)); assert len(key) == 1, f['name']
        f['key'] = key.pop(); f['path'] = path
        if re.search(r'\bswitch \(', b):
            cases = re.findall(r'case (\w+):\s*\{\s*set\("[^"]*",\s*"([^"]*)"\);\s*break;\s*\}', b)
            assert b.count('case ') == len(cases), f['name']
            assert leaves == 2 * n, f['name']      # default branch and the end
            f['kind'] = 'SetEnum [%s]' % '; '.join('(%d%%nat, %s)' % (number[c], coqstr(s)) for c, s in cases)
            f['enum'] = f['args'].split()[0]
        else:
            guarded = 'try' in b
            assert leaves == (2 * n if guarded else n), (f['name'], leaves)
            ty = f['args'].replace('const ', '').replace('&', '').split()
            ty = ' '.join(ty[:-1])
            k = {'double': 'SetDouble', 'long int': 'SetInt', 'bool': 'SetBool', 'std::string': 'SetString'}[ty]
            f['kind'] = k; f['guarded'] = guarded
        setters[(tuple(path), f['key'])] = f
    else:
        m = re.search(r'\bget(_\w+)?\(\s*"([^"]*)"', b); f['key'] = m.group(2); f['path'] = path
        assert len(re.findall(r'\bget(_\w+)?\(\s*"', b)) == 1
        how = m.group(1)
        if how is None and f['ret'] != 'const std::string' and 'string' not in f['ret']:
            chain = re.findall(r'if \("([^"]*)"( == \w+)?\)\s*\{\s*return (\w+);', b)
            assert leaves == n and 'try' not in b, f['name']
            f['kind'] = 'GetEnum [%s]' % '; '.join('(%s, %d%%nat)' % ('Some ' + coqstr(s) if eq else 'None', number[e]) for s, eq, e in chain)
            f['enum'] = f['ret']
        else:
            assert leaves == 2 * n and 'try' in b, f['name']
            r = f['ret'].replace('const ', '')
            f['kind'] = {(None, 'std::string'): 'GetString', ('_double', 'double'): 'GetDouble', ('_bool', 'bool'): 'GetBool',
                         ('_integer', 'size_t'): 'GetSize', ('_double', 'size_t'): 'GetSizeTruncated'}[(how, r)]
        getters[(tuple(path), f['key'])] = f

def ident(name):
    return re.sub(r'^(get|set|is|has)', '', name)

out = ['''(** GENERATED by tools/gen_config.py from solver/SolverConfiguration.{h,cpp},
    utilities/ConfigNames.h, stencils/Stencil.h; do not edit.
    Enumerators are represented by their number in the enum. *)
From Coq Require Import String List Reals ZArith.
Import ListNotations.
From Verif Require Import ConfigTypes.
Open Scope R_scope.
Local Open Scope string_scope.
''']
out.append('(** SolverConfiguration.cpp:%d-%d: the entries declared by the constructor. *)' % (line(C, ctor_start), line(C, ctor_end) - 2))
out.append('Definition declared : list entry_decl :=\n  [' + ';\n   '.join(
    'Decl [%s] %s (%s) (%s)' % ('; '.join(coqstr(x) for x in p), coqstr(k), P, D) for p, k, P, D, l in decl) + '].\n')
opts = []
for key, s in setters.items():
    g = getters.get(key)
    assert g, key
    opts.append((ident(s['name']), s, g))
used = {key for key in setters}
extra = [g for key, g in getters.items() if key not in used]
if '-v' in sys.argv:
    print('options', len(opts), 'declared', len(decl))
    print('special', [(f['name'], f['l0'], f['l1'], f['path'], f['leaves']) for f in special])
    print('getters without plain setter', [g['name'] for g in extra])
    print('declared without setter/getter', [(p, k) for p, k, *_ in decl if (tuple(p), k) not in setters and (tuple(p), k) not in getters])
out.append('(** One constructor per pair of a plain setter and its getter; the options of the special\n    setters (setPrandtlNumber, setSutherlandLaw, setEmbeddedDealIntegratorParameters,\n    setWallNormalCoordinates) follow with their getters only. *)')
out.append('Inductive option_id :=\n' + '\n'.join('| O_%s' % o[0] for o in opts) + '.\n')
out.append('Inductive read_only_id :=\n' + '\n'.join('| G_%s' % ident(g['name']) for g in extra) + '.\n')
P = lambda p: '[%s]' % '; '.join(coqstr(x) for x in p)
out.append('Definition setter_of (o : option_id) : setter_desc :=\n  match o with')
for n, s, g in opts:
    out.append('  (* SolverConfiguration.h:%d-%d %s *)' % (s['l0'], s['l1'], s['name']))
    k = s['kind']
    out.append('  | O_%s => Setter %s %s %s (%s)' % (n, P(s['path']), coqstr(s['key']), 'true' if s.get('guarded') else 'false', k))
out.append('  end.\n')
out.append('Definition getter_of (o : option_id) : getter_desc :=\n  match o with')
for n, s, g in opts:
    out.append('  (* SolverConfiguration.h:%d-%d %s *)' % (g['l0'], g['l1'], g['name']))
    out.append('  | O_%s => Getter %s %s (%s)' % (n, P(g['path']), coqstr(g['key']), g['kind']))
out.append('  end.\n')
out.append('Definition read_only_getter_of (o : read_only_id) : getter_desc :=\n  match o with')
for g in extra:
    out.append('  (* SolverConfiguration.h:%d-%d %s *)' % (g['l0'], g['l1'], g['name']))
    out.append('  | G_%s => Getter %s %s (%s)' % (ident(g['name']), P(g['path']), coqstr(g['key']), g['kind']))
out.append('  end.\n')
out.append('(** Number of enumerators of the argument type of an enum setter (ConfigNames.h, Stencil.h); 0 for other setters. *)')
out.append('Definition enum_size (o : option_id) : nat :=\n  match o with')
for n, s, g in opts:
    if 'enum' in s:
        assert s['enum'] == g['enum']
        out.append('  | O_%s => %d (* %s *)' % (n, len(enums[s['enum']]), s['enum']))
out.append('  | _ => 0\n  end%nat.\n')
out.append('Definition all_options : list option_id :=\n  [' + '; '.join('O_' + o[0] for o in opts) + '].')
open('/verif/rocq/theories/ConfigData.v', 'w').write('\n'.join(out) + '\n')
