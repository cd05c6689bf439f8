#!/usr/bin/env python3
"""Writes rocq/theories/PD_Sky130A.v and PD_Ihp.v from the tables in /repo/cxx/gen_tech_pb/pdk/*.cpp.
Each C++ builder call becomes one Coq builder call (PD_Model.v), in the same order."""
import re, sys

def args(s):
    out, depth, cur, q = [], 0, '', False
    for ch in s:
        if ch == '"': q = not q
        if not q and ch in '({': depth += 1
        if not q and ch in ')}': depth -= 1
        if ch == ',' and depth == 0 and not q: out.append(cur.strip()); cur = ''
        else: cur += ch
    out.append(cur.strip()); return out

def gen(cpp, out, name, title):
    src = open(cpp).read()
    lines = src.split('\n')
    # strip comments, keep line numbers
    clean, inblock = [], False
    for l in lines:
        l = re.sub(r'/\*.*?\*/', '', l)
        if l.strip().startswith('/*'): inblock = True
        if inblock:
            if '*/' in l: inblock = False
            clean.append(''); continue
        q = False; r = ''
        i = 0
        while i < len(l):
            if l[i] == '"': q = not q
            if not q and l[i:i+2] == '//': break
            r += l[i]; i += 1
        clean.append(r)
    fn, rng = None, {}
    strs, consts, calls, contacts, ptr, present = {}, [], [], {}, {}, {}
    for no, l in enumerate(clean, 1):
        m = re.match(r'void (\w+)\(', l)
        if m: fn = m.group(1); rng[fn] = [no, no]
        if fn: 
            if l.startswith('}'): rng[fn][1] = no
        m = re.match(r'\s*const std::string (\w+) = "(.*?)";', l)
        if m: strs[m.group(1)] = m.group(2); continue
        m = re.match(r'\s*(?:double|auto) (\w+)\s*= (.*?);\s*$', l)
        if m and fn == 'buildProcessStackInfo' and not 'mutable' in l and not re.search(r'add\w+\(', l):
            consts.append((no, m.group(1), m.group(2))); continue
        m = re.match(r'\s*auto (\w+) = (\w+)->mutable_contact_above\(\);', l)
        if m: ptr[m.group(1)] = m.group(2); present[m.group(2)] = no; continue
        m = re.match(r'\s*(?:auto (\w+)\s*=\s*)?(add\w+|setContact)\((.*)\);\s*$', l)
        if m:
            var, f, a = m.group(1), m.group(2), args(m.group(3))
            if f == 'setContact': contacts[ptr[a[0]]] = (no, a[1:])
            else: calls.append((no, fn, var, f, a[1:]))
        m = re.match(r'\s*ex->set_side_halo\((.*)\);', l)
        if m: halo = (no, m.group(1))
    def s(x): return f'"{strs[x]}"' if x in strs else x
    def q(x):
        x = x.strip()
        return f'({x})' if re.search(r'[-+ ]', x) else x
    def z(x): return f'({x})' if x.startswith('-') else x
    def contact(v):
        if v not in present: return 'None'
        if v not in contacts: return '(Some blank_contact)'
        no, a = contacts[v]
        return f'(Some (set_contact {a[0]} {a[1]} {a[2]} {" ".join(q(x) for x in a[3:])}))'
    K = dict(KREG='KRegular', KCAP='KCapacitor', KRES='KResistor', KPIN='KPin', KLBL='KLabel')
    def conv(c):
        no, fn, var, f, a = c
        if f == 'addLayer': return f'add_layer {a[0]} {a[1]} {" ".join(z(x) for x in a[2:8])}'
        if f == 'addComputedLayer': return f'add_computed_layer {a[0]} {K[a[1]]} {a[2]} {z(a[3])} {z(a[4])} {a[5]}'
        if f == 'addSubstrateLayer': return f'add_substrate {a[0]} {q(a[1])} {q(a[2])} {a[3]}'
        if f == 'addNWellLayer': return f'add_nwell {a[0]} {q(a[1])} {a[2]} {contact(var)}'
        if f == 'addDiffusionLayer': return f'add_diffusion {a[0]} {q(a[1])} {a[2]} {contact(var)}'
        if f == 'addFieldOxideLayer': return f'add_field_oxide {a[0]} {q(a[1])}'
        if f == 'addMetalLayer': return f'add_metal {a[0]} {q(a[1])} {q(a[2])} {contact(var)}'
        if f == 'addSidewallDielectric': return f'add_sidewall {a[0]} {" ".join(map(q,a[1:4]))} {a[4]}'
        if f == 'addSimpleDielectric': return f'add_simple {a[0]} {q(a[1])} {a[2]}'
        if f == 'addConformalDielectric': return f'add_conformal {a[0]} {" ".join(map(q,a[1:5]))} {a[5]}'
        if f in ('addLayerResistance','addViaResistance'): return f'add_resistance {a[0]} {q(a[1])}'
        if f == 'addContactResistance': return f'add_contact_resistance {a[0]} {a[1]} {a[2]} {q(a[3])}'
        if f == 'addSubstrateCap': return f'add_substrate_cap {s(a[0])} {q(a[1])} {q(a[2])}'
        if f == 'addOverlapCap': return f'add_overlap_cap {s(a[0])} {s(a[1])} {q(a[2])}'
        if f == 'addSidewallCap': return f'add_sidewall_cap {s(a[0])} {q(a[1])} {q(a[2])}'
        if f == 'addSidewallOverlapCap': return f'add_sidewall_overlap_cap {s(a[0])} {s(a[1])} {q(a[2])}'
        raise Exception(f)
    base = cpp[len('/repo/'):]
    o = [f'(** {title}: {base}, one call of a builder function per line, in the order of the source.  Written by tools/gen_pdk.py. *)',
         'From Coq Require Import String ZArith QArith.', 'From Verif Require Import PyBase PyLib SW_Model TI_Model LV_Model RQ_Model PD_Model.',
         'Local Open Scope string_scope.', 'Local Open Scope list_scope.', 'Local Open Scope Q_scope.', '']
    for no, n, e in consts:
        e = re.sub(r"[A-Za-z_]\w*", lambda m: name + "_" + m.group(0), e)
        o.append(f'(** L{no} *)\nDefinition {name}_{n} : Q := {e}.')
    cn = {n for _, n, _ in consts}
    def fixc(t): return re.sub(r'\b(' + '|'.join(sorted(cn, key=len, reverse=True)) + r')\b(?!")', lambda m: f'{name}_{m.group(1)}', t) if cn else t
    def lst(nm, ty, fs, scope=''):
        cs = [c for c in calls if c[3] in fs]
        o.append(f'(** {cs[0][1]}, L{cs[0][0]}-{cs[-1][0]} *)')
        o.append(f'Definition {name}_{nm} : list {ty} := [')
        for i, c in enumerate(cs):
            t = conv(c)
            t = re.sub(r'("[^"]*")|([^"]+)', lambda m: m.group(1) or fixc(m.group(2)), t)
            o.append('  ' + t + (';' if i + 1 < len(cs) else ''))
        o.append(f']{scope}.')
    lst('layers', 'tlayer', ['addLayer'], '%Z%list')
    lst('computed', 'clayer', ['addComputedLayer'], '%Z%list')
    lst('stack', 'player', [f for f in ('addSubstrateLayer','addNWellLayer','addDiffusionLayer','addFieldOxideLayer','addMetalLayer','addSidewallDielectric','addSimpleDielectric','addConformalDielectric')])
    lst('layer_resistances', '(string * Qc)', ['addLayerResistance'])
    lst('contact_resistances', 'contact_resistance', ['addContactResistance'])
    lst('via_resistances', '(string * Qc)', ['addViaResistance'])
    lst('substrates', 'subcap', ['addSubstrateCap'])
    lst('overlaps', 'ovcap', ['addOverlapCap'])
    lst('sidewalls', '(string * (Qc * Qc))', ['addSidewallCap'])
    lst('sideoverlaps', 'socap', ['addSidewallOverlapCap'])
    r = rng['buildTech']
    o.append(f'(** buildTech, L{r[0]}-{r[1]}; side_halo L{halo[0]} *)')
    o.append(f'Definition {name} : technology := Technology {name}_layers {name}_computed {name}_stack (Q2Qc {halo[1]})\n  {name}_layer_resistances {name}_contact_resistances {name}_via_resistances\n  {name}_substrates {name}_overlaps {name}_sidewalls {name}_sideoverlaps.')
    open(out, 'w').write('\n'.join(o) + '\n')

P = '/repo/cxx/gen_tech_pb/pdk/'
T = sys.argv[1] if len(sys.argv) > 1 else '/verif/rocq/theories/'
gen(P + 'sky130A.cpp', T + 'PD_Sky130A.v', 'sky130A', 'The technology of the PDK sky130A')
gen(P + 'ihp_sg13g2.cpp', T + 'PD_Ihp.v', 'ihp', 'The technology of the PDK ihp_sg13g2')
