#!/usr/bin/env python3
"""Reads the one-line element, attribute, property and unit functions of the
sub-packages and the tables of the two generators from the Go source text, and
writes them as Coq tables (rocq/theories/Tables.v).

usage: gen_tables.py REPO > Tables.v

Every function of the listed files must match one of the known body shapes,
otherwise the script stops."""
import re, sys
repo = sys.argv[1]


def read(p):
    return open(f'{repo}/{p}', encoding='utf-8').read()


def line_of(s, pos):
    return s.count('\n', 0, pos) + 1


def slices(*paths):
    """variable name -> bytes of `x = []byte("...")`, `x = []byte(Const)` and
    `x = []byte{'a', 'b'}`"""
    consts, out = {}, {}
    for p in paths:
        for m in re.finditer(r'^\s*(\w+)\s*=\s*"([^"\\]*)"', read(p), re.M):
            consts[m[1]] = m[2]
    for p in paths:
        for m in re.finditer(r'^\s*(\w+)\s*=\s*\[\]byte\((?:"([^"\\]*)"|(\w+))\)', read(p), re.M):
            out[m[1]] = m[2] if m[2] is not None else consts[m[3]]
        for m in re.finditer(r"^\s*(\w+)\s*=\s*\[\]byte\{((?:'.'(?:, )?)+)\}", read(p), re.M):
            out[m[1]] = ''.join(re.findall(r"'(.)'", m[2]))
    return out


# modelled by hand (Packages.v, Headers.v)
SKIP = {'html/attributes.go': {'Aria', 'Data'},
        'htmx/attributes.go': {'On', 'Headers', 'HeadersJS', 'Var'},
        'css/properties.go': {'styleAttribute'}}


def functions(path, vars):
    s = read(path)
    rows = []
    found = re.findall(r'^func ', s, re.M)
    n = 0
    for m in re.finditer(r'^func (\w+)\((.*?)\) aitch\.\w+ \{\n(.*?)\n\}', s, re.M | re.S):
        n += 1
        name, params, body = m[1], m[2], m[3].strip()
        ln = line_of(s, m.start())
        if name in SKIP.get(path, ()):
            continue
        for pat, mk in SHAPES:
            k = re.fullmatch(pat, body)
            if k:
                rows.append((name, mk(k, vars), ln))
                break
        else:
            sys.exit(f'{path}:{ln}: unknown shape: {body}')
    methods = len(re.findall(r'^func \(', s, re.M))
    if n + methods != len(found):
        sys.exit(f'{path}: {len(found)} functions, {n} read')
    return rows


def q(b):
    return '"' + b.replace('"', '""') + '"'


SHAPES = [
    (r'return aitch\.NewElement\((\w+), contents\.\.\.\)', lambda k, v: f'KElement {q(v[k[1]])}'),
    (r'return aitch\.NewVoidElement\((\w+), contents\.\.\.\)', lambda k, v: f'KVoid {q(v[k[1]])}'),
    (r'return aitch\.NewAttribute\((\w+), value\.\.\.\)', lambda k, v: f'KPlain {q(v[k[1]])}'),
    (r'return aitch\.NewBooleanAttribute\((\w+)\)', lambda k, v: f'KBool {q(v[k[1]])}'),
    (r'return aitch\.NewDelimitedAttribute\((\w+), (\w+), value\.\.\.\)',
     lambda k, v: f'KDelim {q(v[k[1]])} {q(v[k[2]])}'),
    (r'return styleAttribute\((\w+), value\.\.\.\)', lambda k, v: f'KStyle {q(v[k[1]])}'),
    (r'return aitch\.NewConcatValue\(append\(value, (\w+)\)\.\.\.\)', lambda k, v: f'KUnit {q(v[k[1]])}'),
]


def table(name, typ, rows, doc):
    print(f'(** {doc} *)')
    print(f'Definition {name} : {typ} := [')
    print(';\n'.join('  ' + r for r in rows))
    print(']%string.\n')


def funtable(name, path, var_paths):
    rows = functions(path, slices(*var_paths))
    table(name, 'list (string * fkind)', [f'({q(n)}, {k})' for n, k, _ in rows],
          f'{path} lines {rows[0][2]}-{rows[-1][2]}: {len(rows)} functions, in source order.')


def gomap(name, path, var):
    s = read(path)
    m = re.search(r'^\t' + var + r' = map\[string\](any|bool)\{\n(.*?)^\t\}', s, re.M | re.S)
    body = m[2]
    rows = re.findall(r'^\t\t"([^"\\]*)":\s*(\w+),$', body, re.M)
    if len(rows) != body.count('\n'):
        sys.exit(f'{path}: map {var} not read completely')
    a, b = line_of(s, m.start()), line_of(s, m.end())
    if m[1] == 'bool':
        assert all(v == 'true' for _, v in rows)
        table(name, 'list string', [q(k) for k, _ in rows],
              f'{path} lines {a}-{b}: the keys of [{var}] (every value is true).')
    else:
        table(name, 'list (string * string)', [f'({q(k)}, {q(v)})' for k, v in rows],
              f'{path} lines {a}-{b}: [{var}], key and function name.')


print('''(** Tables read off the Go source by tools/gen_tables.py; do not edit by hand.

    The element, attribute, property and unit functions of the packages html,
    svg, css and htmx are one-line calls; an entry is the Go name of the
    function and the call it makes. *)
From Coq Require Import String List.
Import ListNotations.

(** What a function calls, with the bytes of the package variables it passes. *)
Inductive fkind :=
| KElement (tag : string)            (* aitch.NewElement(tag, contents...) *)
| KVoid (tag : string)               (* aitch.NewVoidElement(tag, contents...) *)
| KPlain (name : string)             (* aitch.NewAttribute(name, value...) *)
| KBool (name : string)              (* aitch.NewBooleanAttribute(name) *)
| KDelim (name delimiter : string)   (* aitch.NewDelimitedAttribute(name, delimiter, value...) *)
| KStyle (property : string)         (* styleAttribute(property, value...) *)
| KUnit (unit : string).             (* aitch.NewConcatValue(append(value, unit)...) *)
''')
funtable('html_element_functions', 'html/elements.go', ['html/elements.go'])
funtable('html_attribute_functions', 'html/attributes.go', ['html/attributes.go'])
funtable('svg_element_functions', 'svg/elements.go', ['svg/elements.go'])
funtable('svg_attribute_functions', 'svg/attributes.go', ['svg/attributes.go'])
funtable('css_property_functions', 'css/properties.go', ['css/constants.go', 'css/properties.go'])
funtable('css_unit_functions', 'css/units.go', ['css/units.go'])
funtable('htmx_attribute_functions', 'htmx/attributes.go', ['htmx/constants.go', 'htmx/attributes.go'])
gomap('html_generator_elements', 'html/generator.go', 'elems')
gomap('html_generator_attributes', 'html/generator.go', 'attrs')
gomap('html_generator_booleans', 'html/generator.go', 'boolAttrs')
gomap('svg_generator_elements', 'svg/generator.go', 'elems')
gomap('svg_generator_attributes', 'svg/generator.go', 'attrs')


def constants(name, path):
    s = read(path)
    rows = re.findall(r'^(?:const |\t)(\w+)\s*=\s*"([^"\\]*)"', s, re.M)
    if len(rows) != len(re.findall(r'= *"', s)):
        sys.exit(f'{path}: constants not read completely')
    table(name, 'list (string * string)', [f'({q(k)}, {q(v)})' for k, v in rows],
          f'{path}: the {len(rows)} string constants, in source order.')


constants('css_constants', 'css/constants.go')
constants('htmx_constants', 'htmx/constants.go')
