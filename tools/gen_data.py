"""Generate DefaultEntities.v and EntityData.v from the data files of the repository.

The sources are read as data: defaultentities.py through its syntax tree, entity_data.json through json.load.
"""
import ast
import json
import os

REPO = '/repo/py_factorio_blueprints/'
OUT = os.path.join(os.path.dirname(__file__), '../rocq/theories/')


def q(s):
    return '"' + s.replace('"', '""') + '"'


def flt(x):
    """A number as a `val` term."""
    if isinstance(x, int):
        return f'VInt ({x})'
    if x == 0:
        return 'VFlt (S754_zero false)'
    m, e = x.hex().split('p')
    n, d = abs(x).as_integer_ratio()
    e = -(d.bit_length() - 1)
    while n < 2 ** 52:
        n *= 2
        e -= 1
    while n >= 2 ** 53:
        assert n % 2 == 0
        n //= 2
        e += 1
    return f'VFlt (S754_finite {"true" if x < 0 else "false"} {n} ({e}))'


def default_entities():
    body = ast.parse(open(REPO + 'defaultentities.py').read()).body
    env = {}
    table = {}
    for n in body:
        if isinstance(n, ast.Assign) and isinstance(n.value, ast.Constant):
            env[n.targets[0].id] = n.value.value
        elif isinstance(n, ast.Assign):
            assert n.targets[0].id == 'defaultentities'
            for k, v in zip(n.value.keys, n.value.values):
                entry = {kk.value: vv for kk, vv in zip(v.keys, v.values)}
                table[k.value] = {'type': env[entry['type'].id]}
    rows = [f'(KS {q(k)}, {q(v["type"])})' for k, v in table.items()]
    with open(OUT + 'DefaultEntities.v', 'w') as f:
        f.write('(** Generated by tools/gen_data.py from defaultentities.py (names and their "type"). *)\n'
                'From Verif Require Import Py.\n\n'
                '(** defaultentities.py 1-1095: the built-in table behind [NameStr] (util.py 266-286). *)\n'
                'Definition defaultentities : list (key * string) := [\n  ')
        f.write(';\n  '.join(rows) + '].\n')


def entity_data():
    data = json.load(open(REPO + 'entity_data.json'))
    rows = []
    boxes = {}
    for name, e in data['entity'].items():
        b = e['selection_box']
        key = tuple((c, a, b[c][a]) for c in ('left_top', 'right_bottom') for a in b[c])
        if key not in boxes:
            def corner(c):
                return 'VDict [' + '; '.join(f'(KS {q(a)}, {flt(v)})' for a, v in b[c].items()) + ']'
            boxes[key] = (f'box{len(boxes)}',
                          f'VDict [(KS "left_top", {corner("left_top")}); (KS "right_bottom", {corner("right_bottom")})]')
        rows.append(f'(KS {q(name)}, proto {q(e["type"])} {boxes[key][0]})')
    sig = [f'(KS {q(n)}, VDict [(KS "name", VStr {q(n)}); (KS "type", VStr {q(e["type"])})])'
           for n, e in data['signal'].items()]

    def names(t):
        return '; '.join(f'KS {q(n)}' for n in data[t])
    with open(OUT + 'EntityData.v', 'w') as f:
        f.write('(** Generated by tools/gen_data.py from entity_data.json: the prototype data shipped with the\n'
                '    library, restricted to the fields the code reads (type, selection_box). *)\n'
                'From Verif Require Import Py.\n\n'
                'Definition proto (t : string) (box : val) : val :=\n'
                '  VDict [(KS "type", VStr t); (KS "selection_box", box)].\n')
        for n, t in boxes.values():
            f.write(f'Definition {n} : val := {t}.\n')
        f.write('\n(** entity_data.json, "entity" *)\nDefinition shipped_entities : dict := [\n  '
                + ';\n  '.join(rows) + '].\n')
        f.write('\n(** entity_data.json, "signal" *)\nDefinition shipped_signals : dict := [\n  '
                + ';\n  '.join(sig) + '].\n')
        for t, n in (('recipe', 'recipes'), ('item', 'items'), ('tile', 'tiles')):
            f.write(f'\n(** entity_data.json, "{t}" (names only) *)\nDefinition shipped_{n} : dict :=\n'
                    f'  map (fun k => (k, VDict [])) [\n  {names(t)}].\n')


default_entities()
entity_data()
