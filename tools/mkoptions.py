#!/usr/bin/env python3
"""Writes rocq/theories/Options_Table.v from the option declarations in
/repo/thetis/options.py (read as text)."""
import ast
from fractions import Fraction
src = open('/repo/thetis/options.py').read()
tree = ast.parse(src)


def s(x):
    return '"' + x.replace('"', '""') + '"'


def q(x):
    f = Fraction(str(x))
    return '(qq (%d) %d)' % (f.numerator, f.denominator)


classes = {}
order = []


def num(node):
    v = ast.literal_eval(node)
    return v


def value(kind, node):
    """default value of an option"""
    if node is None:
        return 'VNone'
    if isinstance(node, ast.Constant) and node.value is None:
        return 'VNone'
    if kind in ('Float', 'PositiveFloat', 'NonNegativeFloat', 'BoundedFloat'):
        return '(VFloat (Fin %s))' % q(num(node))
    if kind in ('Integer', 'PositiveInteger', 'NonNegativeInteger'):
        return '(VInt %d)' % num(node)
    if kind == 'Bool':
        return '(VBool %s)' % ('true' if num(node) else 'false')
    if kind in ('Unicode', 'Enum'):
        return '(VStr %s)' % s(num(node))
    if kind.startswith('Firedrake'):
        assert ast.unparse(node).startswith('Constant(')
        return '(VUfl UConstant true)'
    if kind in ('PETScSolverParameters', 'Dict'):
        return 'VDict'
    if kind == 'List':
        return 'VList'
    if kind == 'Type':
        return 'VType'
    raise ValueError(kind)


SIMPLE = {'Float': 'TFloat', 'PositiveFloat': 'TPosFloat', 'NonNegativeFloat': 'TNonNegFloat',
          'Integer': 'TInt', 'PositiveInteger': 'TPosInt', 'NonNegativeInteger': 'TNonNegInt',
          'Bool': 'TBool', 'Unicode': 'TUnicode', 'FiredrakeConstantTraitlet': 'TConstant',
          'FiredrakeCoefficient': 'TCoefficient', 'FiredrakeScalarExpression': 'TScalar',
          'FiredrakeVectorExpression': 'TVector', 'DatetimeTraitlet': 'TDatetime',
          'PETScSolverParameters': 'TDict', 'Dict': 'TDict', 'List': 'TList', 'Type': 'TType'}


def untag(v):
    while isinstance(v, ast.Call) and isinstance(v.func, ast.Attribute) and v.func.attr == 'tag':
        v = v.func.value
    return v


for c in tree.body:
    if not isinstance(c, ast.ClassDef):
        continue
    bases = [b.id for b in c.bases]
    anc = [c.name]
    decls, pairs, attrs = {}, {}, {}
    for b in bases:
        if b in classes:
            anc += [a for a in classes[b]['anc'] if a not in anc]
            decls.update(classes[b]['decls'])
            pairs.update(classes[b]['pairs'])
            attrs.update(classes[b]['attrs'])
    for st in c.body:
        if not isinstance(st, ast.Assign):
            continue
        nm = st.targets[0].id
        v = untag(st.value)
        if not isinstance(v, ast.Call):
            attrs[nm] = 'VStr %s' % s(v.value)
            continue
        kind = ast.unparse(v.func)
        kws = {k.arg: k.value for k in v.keywords}
        if kind in classes:
            attrs[nm] = 'VObj %s []' % s(kind)   # object created with the class
            continue
        none = 'allow_none' in kws and num(kws['allow_none'])
        if kind == 'Instance':
            base = v.args[0].id
            decls[nm] = (st.lineno, '(TInstance %s)' % s(base), none, '(VObj %s [])' % s(base))
            continue
        if kind == 'Enum':
            vals = num(kws['values'] if 'values' in kws else v.args[0])
            decls[nm] = (st.lineno, '(TEnum [%s])' % '; '.join(map(s, vals)), none, value(kind, kws['default_value']))
            continue
        if kind == 'BoundedFloat':
            lo, hi = num(kws['bounds'])
            decls[nm] = (st.lineno, '(TBndFloat %s %s)' % (q(lo), q(hi)), none, value(kind, kws['default_value']))
            continue
        dv = kws.get('default_value', v.args[0] if v.args else None)
        decls[nm] = (st.lineno, SIMPLE[kind], none, value(kind, dv))
    for d in c.decorator_list:
        enum, pe, inst = d.args[0].value, untag(d.args[1]), untag(d.args[2])
        lst = [(e.elts[0].value, e.elts[1].id) for e in pe.args[0].elts]
        slave = pe.args[1].value
        dv = [k.value.value for k in pe.keywords if k.arg == 'default_value'][0]
        decls[enum] = (d.lineno, '(TEnum [%s])' % '; '.join(s(a) for a, _ in lst), False, '(VStr %s)' % s(dv))
        decls[slave] = (inst.lineno, '(TInstance %s)' % s(inst.args[0].id), False, '(VObj %s [])' % s(dict(lst)[dv]))
        pairs[enum] = (slave, lst)
    classes[c.name] = dict(anc=anc, decls=decls, pairs=pairs, attrs=attrs, line=c.lineno)
    order.append(c.name)

out = ['(** The option classes declared in thetis/options.py: written by tools/mkoptions.py',
       '    from the source text.  Each comment gives the line of the declaration.',
       '    Inherited options are listed with every class. *)',
       'From Coq Require Import String.',
       'From Verif Require Import Num Options_Model.',
       'Open Scope string_scope.', 'Open Scope Z_scope.', '',
       '(** class and its ancestors, the class itself included *)',
       'Definition hierarchy : classes := Classes [']
out.append(';\n'.join('  (%s, [%s])' % (s(c), '; '.join(map(s, classes[c]['anc']))) for c in order))
out.append('].\n')
for c in order:
    k = classes[c]
    out.append('(** options.py:%d *)' % k['line'])
    out.append('Definition %s_class : optclass := mkClass [' % c)
    out.append(';\n'.join('  (%s, mkDecl %s %s %s) (* %d *)' % (s(n), t, 'true' if a else 'false', d, ln)
                          for n, (ln, t, a, d) in k['decls'].items()))
    out.append('  ] [')
    out.append(';\n'.join('  (%s, mkPair %s [%s])' % (s(e), s(sl), '; '.join('(%s, %s)' % (s(a), s(b)) for a, b in l))
                          for e, (sl, l) in k['pairs'].items()))
    out.append('  ].\n')
out.append('Definition option_classes : list (string * optclass) := [')
out.append(';\n'.join('  (%s, %s_class)' % (s(c), c) for c in order))
out.append('].\n')
out.append('(** plain attributes of the classes (not option types); those holding an object\n    are created once, with the class *)')
out.append('Definition class_attrs : list (string * list (string * pyval)) := [')
out.append(';\n'.join('  (%s, [%s])' % (s(c), '; '.join('(%s, %s)' % (s(n), v) for n, v in classes[c]['attrs'].items())) for c in order))
out.append('].\n')
out.append('(** declarations by class name *)')
out.append('Definition decls_of (cls : string) : list (string * decl) :=')
out.append('  match Exporter_Model.dict_get option_classes cls with Some c => oc_decls c | None => [] end.')
open('/verif/rocq/theories/Options_Table.v', 'w').write('\n'.join(out) + '\n')
