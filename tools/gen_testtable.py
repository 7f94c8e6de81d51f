#!/usr/bin/env python3
"""Reads the expectations of the repository's own unit tests for the element,
attribute, property and unit functions (html, svg, css, htmx) and writes them
as a Coq table (rocq/theories/TestTable.v).

usage: gen_testtable.py REPO > TestTable.v

Only tests of the form

    x := F(args...)            args among Id(1), Text("foo"), "foo", 10, U(10)
    ... Equal(t, "name", x.Name())       (optional)
    ... Equal(t, `output`, testRender(x, t))

are read; the others are transcribed by hand in Conformance.v or left out.
The number of test functions of both sorts goes to stderr."""
import re, sys
repo = sys.argv[1]


def q(b):
    return '"' + b.replace('"', '""') + '"'


ARGS = {'': '[]', '"foo"': '[TStr "foo"]', 'Id(1), Text("foo")': '[TId 1; TText "foo"]',
        'Text("foo")': '[TText "foo"]', 'Id(1)': '[TId 1]', '"click"': '[TStr "click"]'}


def read(path, coq):
    s = open(f'{repo}/{path}', encoding='utf-8').read()
    tests = re.findall(r'^func (Test\w+)\(t \*testing\.T\) \{\n(.*?)^\}', s, re.M | re.S)
    rows, left = [], []
    for name, body in tests:
        m = re.fullmatch(r'\t\w+ := (\w+)\((.*)\)\n(?:\trequire\.Equal\(t, aitch\.(\w+), \w+\.Type\(\)\)\n)?'
                         r'(?:\trequire\.Equal\(t, "([^"]*)", \w+\.Name\(\)\)\n)?'
                         r'\t(?:require|assert)\.Equal\(t, `([^`]*)`, testRender\(\w+, t\)\)\n', body)
        if not m:
            left.append(name)
            continue
        fn, args, typ, nm, out = m.groups()
        u = re.fullmatch(r'(\w+)\(10\)', args)
        if args in ARGS:
            a = ARGS[args]
        elif u and path == 'css/units_test.go':
            a = f'[TUnit {q(u[1])} 10]'
        else:
            left.append(name)
            continue
        rows.append(f'({q(fn)}, {a}, {"None" if nm is None else "Some " + q(nm)}, {q(out)})')
    print(f'(** {path}: {len(rows)} of {len(tests)} test functions. *)')
    print(f'Definition {coq} : list expectation := [')
    print(';\n'.join('  ' + r for r in rows))
    print(']%string.\n')
    print(path, len(rows), 'read;', 'not read:', ' '.join(left), file=sys.stderr)


print('''(** Expectations of the repository's unit tests, read off the Go source by
    tools/gen_testtable.py; do not edit by hand. *)
From Coq Require Import String List.
Import ListNotations.

(** Arguments that occur in these tests: a string literal, Id(n), Text("s"),
    and css unit calls such as Px(10). *)
Inductive targ := TStr (s : string) | TId (n : nat) | TText (s : string) | TUnit (f : string) (n : nat).

(** Function, arguments, expected Name() if the test checks it, expected
    output. *)
Definition expectation := (string * list targ * option string * string)%type.
''')
read('html/elements_test.go', 'html_element_tests')
read('html/attributes_test.go', 'html_attribute_tests')
read('svg/elements_test.go', 'svg_element_tests')
read('svg/attributes_test.go', 'svg_attribute_tests')
read('css/properties_test.go', 'css_property_tests')
read('css/units_test.go', 'css_unit_tests')
read('htmx/attributes_test.go', 'htmx_attribute_tests')
