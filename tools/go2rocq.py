#!/usr/bin/env python3
"""Translate the Go source of the rendering core and of the packages html, svg,
css and htmx into the syntax trees of rocq/theories/GoSyntax.v; the output is
rocq/theories/Source.v and, with --lib, rocq/theories/SourceLib.v.

Usage: go2rocq.py [--lib] [repo] > Source.v

The translation is purely syntactic: it parses the files, resolves every
identifier to a local variable, a package variable, a package function, a
constant or a function of another package, and prints the tree.  What the trees
mean is defined in rocq/theories/GoSem.v.  A construct outside the subset is an
error, never skipped.  The functions left out are listed in SKIP.

Closures copy the variables they capture, so a variable that a closure assigns
is put into a struct "box" with one field "v": its definition allocates the
struct, and the variable is read and assigned as that field.

The type parameter of a generic function is the type "T"; a call f[T](...) is
at the same type."""
import sys, re

LIBRARY = '--lib' in sys.argv
ARGS = [a for a in sys.argv[1:] if a != '--lib']
REPO = ARGS[0] if ARGS else '/repo'

# (package, file, names to translate; None = everything)
FILES = [
    ('context', 'context/context.go', None),
    ('aitch', 'aitch.go', None),
    ('aitch', 'value.go', None),
    ('aitch', 'attribute.go', None),
    ('aitch', 'collection.go', None),
    ('aitch', 'comment.go', None),
    ('aitch', 'conditional.go', None),
    ('aitch', 'element.go', None),
    ('aitch', 'fragment.go', None),
    ('aitch', 'imperative.go', None),
    ('aitch', 'iterate.go', None),
    ('aitch', 'pi.go', None),
    ('aitch', 'template.go', None),
    ('aitch', 'text.go', None),
    ('html', 'html/document.go', None),
]
# the functions for the elements, attributes, properties and units
LIB = [
    ('html', 'html/base.go', None),
    ('html', 'html/elements.go', None),
    ('html', 'html/attributes.go', None),
    ('svg', 'svg/base.go', None),
    ('svg', 'svg/elements.go', None),
    ('svg', 'svg/attributes.go', None),
    ('css', 'css/constants.go', None),
    ('css', 'css/properties.go', None),
    ('css', 'css/units.go', None),
    ('htmx', 'htmx/constants.go', None),
    ('htmx', 'htmx/attributes.go', None),
    ('html', 'html/generator.go', None),
    ('svg', 'svg/generator.go', None),
]
SKIP = set()
# functions on maps of headers, modelled in Headers.v
SKIP_LIB = set()

LOCAL_PKGS = {'github.com/go-andiamo/aitch': 'aitch',
              'github.com/go-andiamo/aitch/context': 'context'}
BUILTINS = {'len', 'append', 'make', 'copy', 'panic', 'string', 'int', 'int64',
            'uint64', 'float64', 'cap', 'byte'}
# map types of other packages
EXT_MAPS = {'html/template.FuncMap': 'map[string]any'}
CONVS = {'string', 'int', 'int64', 'uint64', 'float64', 'byte'}

# ---------------------------------------------------------------- tokens
TOK = re.compile(r'''
  (?P<ws>[ \t\r]+) | (?P<nl>\n) | (?P<lc>//[^\n]*) | (?P<bc>/\*.*?\*/)
| (?P<id>[A-Za-z_]\w*) | (?P<num>\d+)
| (?P<str>"(?:\\.|[^"\\\n])*") | (?P<raw>`[^`]*`) | (?P<chr>'(?:\\[0-7]{3}|\\.|[^'\\])')
| (?P<op>\.\.\.|:=|\+\+|--|\+=|-=|==|!=|<=|>=|&&|\|\||[-+*/%&|^!<>=(){}\[\],;.:~])
''', re.X | re.S)
KEYWORDS = {'break', 'case', 'chan', 'const', 'continue', 'default', 'defer', 'else',
            'fallthrough', 'for', 'func', 'go', 'goto', 'if', 'import', 'interface', 'map',
            'package', 'range', 'return', 'select', 'struct', 'switch', 'type', 'var'}

class Err(Exception):
    pass

def tokenize(src):
    out, i, line = [], 0, 1
    def need_semi():
        if not out: return False
        k, v, _ = out[-1]
        return (k in ('id', 'num', 'str', 'raw', 'chr') or
                (k == 'kw' and v in ('break', 'continue', 'fallthrough', 'return')) or
                (k == 'op' and v in ('++', '--', ')', ']', '}')))
    while i < len(src):
        m = TOK.match(src, i)
        if not m: raise Err('line %d: bad character %r' % (line, src[i]))
        k, v = m.lastgroup, m.group()
        if k == 'nl':
            if need_semi(): out.append(('op', ';', line))
        elif k in ('ws', 'lc', 'bc'):
            if k == 'bc' and '\n' in v and need_semi(): out.append(('op', ';', line))
        else:
            if k == 'id' and v in KEYWORDS: k = 'kw'
            out.append((k, v, line))
        line += v.count('\n')
        i = m.end()
    out.append(('eof', '', line))
    return out

ESC = {'n': 10, 't': 9, 'r': 13, '\\': 92, '"': 34, "'": 39, 'a': 7, 'b': 8, 'f': 12, 'v': 11}
def unquote(body):
    """bytes of an interpreted literal's body"""
    out, i = [], 0
    while i < len(body):
        c = body[i]
        if c != '\\':
            out += list(c.encode()); i += 1; continue
        d = body[i + 1]
        if d in ESC: out.append(ESC[d]); i += 2
        elif d in '01234567': out.append(int(body[i + 1:i + 4], 8)); i += 4
        elif d == 'x': out.append(int(body[i + 2:i + 4], 16)); i += 4
        else: raise Err('escape \\' + d)
    return out

# ---------------------------------------------------------------- parser
class Parser:
    def __init__(self, pkg, src):
        self.pkg, self.t, self.p = pkg, tokenize(src), 0
        self.imports, self.lev = {}, 0
        self.decls = []
    def peek(self, n=0): return self.t[self.p + n]
    def val(self): return self.t[self.p][1]
    def at(self, v): return self.t[self.p][1] == v and self.t[self.p][0] in ('op', 'kw')
    def next(self): self.p += 1; return self.t[self.p - 1]
    def accept(self, v):
        if self.at(v): self.p += 1; return True
        return False
    def expect(self, v):
        if not self.at(v): raise Err('line %d: expected %r, found %r' % (self.peek()[2], v, self.val()))
        return self.next()
    def ident(self):
        k, v, l = self.next()
        if k != 'id': raise Err('line %d: expected identifier, found %r' % (l, v))
        return v

    # types are normalised text; qualifiers of the project's own packages dropped
    def type(self):
        k, v, l = self.peek()
        if self.accept('*'): return '*' + self.type()
        if self.accept('['):
            self.expect(']'); return '[]' + self.type()
        if self.accept('map'):
            self.expect('['); a = self.type(); self.expect(']'); return 'map[%s]%s' % (a, self.type())
        if self.accept('func'):
            ps, _ = self.params()
            return 'func(%s)%s' % (', '.join(t for _, t in ps), self.result_type())
        if self.accept('struct'):
            self.expect('{'); fs = []
            while not self.at('}'):
                names = [self.ident()]
                while self.accept(','): names.append(self.ident())
                ty = self.type()
                fs += [(n, ty) for n in names]
                if not self.accept(';'): break
            self.expect('}')
            return ('struct', fs) if fs else 'struct{}'
        if self.accept('interface'):
            self.expect('{'); ms = []
            while not self.at('}'):
                n = self.ident(); self.params(); self.result_type(); ms.append(n)
                if not self.accept(';'): break
            self.expect('}')
            return ('interface', ms)
        name = self.ident()
        if self.at('.') and name in self.imports:
            self.next(); n2 = self.ident()
            pk = self.imports[name]
            return n2 if pk in ('aitch', 'context') else pk + '.' + n2
        return name
    def result_type(self):
        if self.at('('):
            ps, _ = self.params(); return ' (%s)' % ', '.join(t for _, t in ps)
        if self.peek()[0] == 'id' or self.val() in ('*', '[', 'map', 'func', 'interface'):
            return ' ' + self.type()
        return ''
    def params(self):
        """[(name or None, type)], variadic"""
        self.expect('('); groups, variadic = [], False
        entries = []
        while not self.at(')'):
            # either "name type", "name" (grouped) or "type"
            if self.peek()[0] == 'id' and not (self.peek(1)[1] in (',', ')', '.')):
                n = self.ident()
                if self.accept('...'): variadic = True; entries.append((n, '[]' + self.type()))
                else: entries.append((n, self.type()))
            elif self.peek()[0] == 'id' and self.peek(1)[1] in (',', ')'):
                entries.append((None, self.type()))
            else:
                if self.accept('...'): variadic = True; entries.append((None, '[]' + self.type()))
                else: entries.append((None, self.type()))
            if not self.accept(','): break
        self.expect(')')
        if any(n for n, _ in entries):
            # grouped names: an entry without a name is a name whose type follows
            out, pend = [], []
            for n, t in entries:
                if n is None: pend.append(t)
                else:
                    out += [(x, t) for x in pend] + [(n, t)]; pend = []
            if pend: raise Err('bad parameter list')
            entries = out
        return entries, variadic
    def results(self):
        if self.at('('):
            return self.params()[0]
        if self.at('{') or self.at(';'): return []
        return [(None, self.type())]

    # expressions
    PREC = {'||': 1, '&&': 2, '==': 3, '!=': 3, '<': 3, '<=': 3, '>': 3, '>=': 3,
            '+': 4, '-': 4, '*': 5}
    def expr(self, prec=1):
        e = self.unary()
        while self.peek()[0] == 'op' and self.PREC.get(self.val(), 0) >= prec:
            op = self.next()[1]
            e = ('bin', op, e, self.expr(self.PREC[op] + 1))
        return e
    def unary(self):
        if self.accept('!'): return ('not', self.unary())
        if self.accept('-'):
            e = self.unary()
            if e[0] != 'int': raise Err('unary minus')
            return ('int', -e[1])
        if self.accept('&'):
            e = self.unary()
            if e[0] != 'lit': raise Err('& of something else than a literal')
            return ('lit', True, e[2], e[3])
        return self.primary()
    def primary(self):
        k, v, l = self.peek()
        if k == 'num': self.next(); e = ('int', int(v))
        elif k == 'str': self.next(); e = ('str', unquote(v[1:-1]))
        elif k == 'raw': self.next(); e = ('str', list(v[1:-1].encode()))
        elif k == 'chr':
            self.next(); b = unquote(v[1:-1])
            if len(b) != 1: raise Err('wide rune')
            e = ('int', b[0])
        elif self.accept('('):
            self.lev += 1
            if self.at('*'):                      # (*T)(nil)
                t = self.type(); e = ('type', t)
            else: e = self.expr()
            self.lev -= 1
            self.expect(')')
        elif v == 'func':
            self.next(); ps, var = self.params(); rs = self.results()
            lev, self.lev = self.lev, 0
            body = self.block(); self.lev = lev
            e = ('func', ps, var, rs, body)
        elif v in ('[', 'map', 'struct'):
            t = self.type(); e = ('type', t)
        elif k == 'id':
            self.next(); e = ('id', v)
        else: raise Err('line %d: unexpected %r' % (l, v))
        while True:
            if self.at('{') and (e[0] == 'type' or (self.lev >= 0 and self.typeish(e))):
                t = e[1] if e[0] == 'type' else self.typename(e)
                e = ('lit', False, t, self.lit_body())
            elif self.accept('.'):
                if self.accept('('):
                    if self.accept('type'): e = ('typeswitch', e)
                    else: e = ('assert', e, self.type())
                    self.expect(')')
                else: e = ('sel', e, self.ident())
            elif self.accept('['):
                self.lev += 1
                lo = None if self.at(':') else self.expr()
                if self.accept(':'):
                    hi = None if self.at(']') else self.expr()
                    e = ('slice', e, lo, hi)
                else: e = ('index', e, lo)
                self.lev -= 1
                self.expect(']')
            elif self.at('('):
                self.next(); self.lev += 1
                args, spread = [], False
                while not self.at(')'):
                    args.append(self.type_or_expr())
                    if self.accept('...'): spread = True
                    if not self.accept(','): break
                self.lev -= 1
                self.expect(')')
                e = ('call', e, args, spread)
            else: return e
    def type_or_expr(self):
        return self.expr()
    def typeish(self, e):
        if e[0] == 'id': return e[1][0].isupper() or e[1] in self.types
        return e[0] == 'sel' and e[1][0] == 'id' and e[1][1] in self.imports and e[2][0].isupper()
    def typename(self, e):
        if e[0] == 'id': return e[1]
        pk = self.imports[e[1][1]]
        return e[2] if pk in ('aitch', 'context') else pk + '.' + e[2]
    def lit_body(self):
        self.expect('{'); self.lev, lev = 0, self.lev
        out = []
        while not self.at('}'):
            key = None
            if self.at('{'): v = ('elided', self.lit_body())
            else: v = self.expr()
            if self.accept(':'):
                key = v
                if self.at('{'): v = ('elided', self.lit_body())
                else: v = self.expr()
            out.append((key, v))
            if not self.accept(','): break
        self.lev = lev
        self.expect('}')
        return out

    # statements
    def block(self):
        self.expect('{'); out = []
        while not self.at('}'):
            s = self.stmt()
            if s is not None: out.append(s)
            if not self.accept(';'): break
        self.expect('}')
        return ('block', out)
    def simple(self):
        """simple statement; may be a range clause"""
        if self.at('range'): raise Err('range without variables')
        l = [self.expr()]
        while self.accept(','): l.append(self.expr())
        k, v, ln = self.peek()
        if v in (':=', '='):
            self.next()
            if self.accept('range'): return ('range', l, v, self.expr())
            r = [self.expr()]
            while self.accept(','): r.append(self.expr())
            return ('define' if v == ':=' else 'assign', l, r)
        if v == '++': self.next(); return ('opassign', l[0], '+', ('int', 1))
        if v == '--': self.next(); return ('opassign', l[0], '-', ('int', 1))
        if v == '+=': self.next(); return ('opassign', l[0], '+', self.expr())
        if len(l) != 1: raise Err('line %d: expression list' % ln)
        return ('expr', l[0])
    def stmt(self):
        k, v, l = self.peek()
        if v == ';': return None
        if k == 'kw':
            if v == 'return':
                self.next(); es = []
                if not self.at(';') and not self.at('}'):
                    es = [self.expr()]
                    while self.accept(','): es.append(self.expr())
                return ('return', es)
            if v in ('break', 'continue'):
                self.next(); return (v,)
            if v == 'if': return self.if_()
            if v == 'for': return self.for_()
            if v == 'switch': return self.switch()
            if v == 'var':
                self.next(); n = self.ident()
                if self.accept('='): return ('define', [('id', n)], [self.expr()])
                t = self.type()
                if self.accept('='): raise Err('var with type and value')
                return ('var', n, t)
            if v == 'func': pass
            else: raise Err('line %d: statement %r' % (l, v))
        if v == '{': return self.block()
        return self.simple()
    def if_(self):
        self.expect('if'); self.lev, lev = -1, self.lev
        init, cond = None, self.simple()
        if self.accept(';'): init, cond = cond, self.simple()
        self.lev = lev
        if cond[0] != 'expr': raise Err('if condition')
        then = self.block(); els = None
        if self.accept('else'):
            els = self.if_() if self.at('if') else self.block()
        return ('if', init, cond[1], then, els)
    def for_(self):
        self.expect('for'); self.lev, lev = -1, self.lev
        init = cond = post = None
        if self.at('{'): raise Err('endless loop')
        s = self.simple()
        if s[0] == 'range':
            self.lev = lev
            return ('rangefor', s[1], s[2], s[3], self.block())
        if self.accept(';'):
            init = s
            cond = self.simple(); self.expect(';')
            if not self.at('{'): post = self.simple()
        else: cond = s
        self.lev = lev
        return ('for', init, cond[1], post, self.block())
    def switch(self):
        self.expect('switch'); self.lev, lev = -1, self.lev
        tag = self.simple()
        if self.at(';'): raise Err('switch with init')
        self.lev = lev
        ts = None
        if tag[0] == 'define' and tag[2][0][0] == 'typeswitch':
            ts = (tag[1][0][1], tag[2][0][1])
        elif tag[0] == 'expr' and tag[1][0] == 'typeswitch':
            ts = (None, tag[1][1])
        elif tag[0] != 'expr': raise Err('switch header')
        self.expect('{'); cases, default = [], None
        while not self.at('}'):
            if self.accept('default'):
                labels = None
            else:
                self.expect('case')
                labels = [self.type() if ts else self.expr()]
                while self.accept(','): labels.append(self.type() if ts else self.expr())
            self.expect(':'); body = []
            while not (self.at('case') or self.at('default') or self.at('}')):
                s = self.stmt()
                if s is not None: body.append(s)
                if not self.accept(';'): break
            if labels is None:
                if default is not None: raise Err('two defaults')
                default = ('block', body)
            else: cases.append((labels, ('block', body)))
        self.expect('}')
        if ts: return ('typeswitchstmt', ts[0], ts[1], cases, default)
        return ('switchstmt', tag[1], cases, default)

    # declarations
    def file(self):
        # names of the types declared in the package, for literals
        self.expect('package'); self.ident(); self.accept(';')
        while self.accept('import'):
            def spec():
                k, v, _ = self.next()
                if k != 'str': raise Err('import alias')
                path = v[1:-1]; name = path.split('/')[-1]
                self.imports[name] = LOCAL_PKGS.get(path, path)
            if self.accept('('):
                while not self.at(')'): spec(); self.accept(';')
                self.expect(')')
            else: spec()
            self.accept(';')
        while self.peek()[0] != 'eof':
            v, l = self.val(), self.peek()[2]
            if v == 'type':
                self.next(); n = self.ident()
                alias = self.accept('=')
                self.decls.append(('type', n, self.type(), l, alias))
            elif v == 'var' or v == 'const':
                self.next()
                if self.accept('('):
                    it = 0
                    while not self.at(')'):
                        it = self.vspec(v, it); self.accept(';')
                    self.expect(')')
                else: self.vspec(v, 0)
            elif v == 'func':
                self.next(); recv = None
                if self.at('('):
                    (recv,), _ = self.params()
                name = self.ident()
                if self.accept('['):             # one type parameter, called T
                    if self.ident() != 'T' or self.ident() != 'any': raise Err('line %d: type parameters' % l)
                    self.expect(']')
                ps, var = self.params(); rs = self.results(); body = self.block()
                self.decls.append(('func', recv, name, ps, var, rs, body, l))
            else: raise Err('line %d: declaration %r' % (l, v))
            self.accept(';')
        return self
    last_const = None
    def vspec(self, kind, it):
        l = self.peek()[2]
        n = self.ident(); t = None
        if not (self.at('=') or self.at(';') or self.at(')')): t = self.type()
        e = None
        if self.accept('='): e = self.expr()
        if kind == 'const':
            if e == ('id', 'iota'): self.last_const = 'iota'
            elif e is not None: self.last_const = None
            if self.last_const == 'iota': e = ('int', it)
            if e is None or e[0] not in ('int', 'str'): raise Err('constant ' + n)
            self.decls.append(('const', n, e, l))
        else:
            if n == '_':                          # interface assertion
                return it + 1
            if e is None: raise Err('variable without value: ' + n)
            self.decls.append(('var', n, e, l))
        return it + 1

# ---------------------------------------------------------------- printing
def q(s): return '"%s"' % s.replace('"', '""')
def bl(bs):
    if all(32 <= b < 127 for b in bs): return '(B %s)' % q(''.join(map(chr, bs)))
    return '[' + '; '.join('ascii_of_nat %d' % b for b in bs) + ']'
def lst(l): return '[' + '; '.join(l) + ']'
def opt(x): return 'None' if x is None else '(Some %s)' % x

class Printer:
    def __init__(self, parsed):
        self.consts, self.vars, self.funcs, self.types = {}, {}, {}, {}
        for ps in parsed:
            for d in ps.decls:
                if d[0] == 'const': self.consts[ps.pkg, d[1]] = d[2]
                if d[0] == 'var': self.vars[ps.pkg, d[1]] = d[2]
                if d[0] == 'func' and d[1] is None: self.funcs[ps.pkg, d[2]] = d
                if d[0] == 'type': self.types[d[1]] = (ps.pkg, d[2])
        self.named_slices = {n for n, (_, t) in self.types.items()
                             if isinstance(t, str) and t.startswith('[]')}
    # -- names
    def name(self, n):
        """an identifier in expression position"""
        if n in self.scope and n in self.boxed: return '(EField (ELoc %s) "v")' % q(n)
        if n in self.scope: return '(ELoc %s)' % q(n)
        if n == 'nil': return 'ENil'
        if n == 'true': return '(EBool true)'
        if n == 'false': return '(EBool false)'
        return self.pkg_name(self.ps.pkg, n)
    def pkg_name(self, pkg, n):
        if (pkg, n) in self.consts: return self.expr(self.consts[pkg, n])
        if (pkg, n) in self.vars: return '(EGlob %s)' % q(pkg + '.' + n)
        if (pkg, n) in self.funcs: return '(EFun %s)' % q(pkg + '.' + n)
        raise Err('unknown name %s.%s' % (pkg, n))
    def pkg_of(self, e):
        if e[0] == 'id' and e[1] not in self.scope and e[1] in self.ps.imports:
            return self.ps.imports[e[1]]
        return None
    # -- expressions
    def expr(self, e):
        k = e[0]
        if k == 'int': return '(EInt %s)' % (e[1] if e[1] >= 0 else '(%d)' % e[1])
        if k == 'str': return '(EStr %s)' % bl(e[1])
        if k == 'id': return self.name(e[1])
        if k == 'not': return '(ENot %s)' % self.expr(e[1])
        if k == 'bin':
            a, b = self.expr(e[2]), self.expr(e[3])
            if e[1] == '&&': return '(EAnd %s %s)' % (a, b)
            if e[1] == '||': return '(EOr %s %s)' % (a, b)
            op = {'==': 'OEq', '!=': 'ONe', '<': 'OLt', '<=': 'OLe', '>': 'OGt', '>=': 'OGe',
                  '+': 'OAdd', '-': 'OSub', '*': 'OMul'}[e[1]]
            return '(EBin %s %s %s)' % (op, a, b)
        if k == 'sel':
            p = self.pkg_of(e[1])
            if p in ('aitch', 'context', 'html'): return self.pkg_name(p, e[2])
            if p: return '(EExt %s)' % q(p + '.' + e[2])
            return '(EField %s %s)' % (self.expr(e[1]), q(e[2]))
        if k == 'index': return '(EIndex %s %s)' % (self.expr(e[1]), self.expr(e[2]))
        if k == 'slice':
            return '(ESub %s %s %s)' % (self.expr(e[1]), opt(e[2] and self.expr(e[2])),
                                        opt(e[3] and self.expr(e[3])))
        if k == 'assert': return '(EAssert %s %s)' % (self.expr(e[1]), q(e[2]))
        if k == 'lit': return self.lit(e[1], e[2], e[3])
        if k == 'call': return self.call(e)
        if k == 'func': return self.func(e)
        raise Err('expression %r' % (k,))
    def call(self, e):
        f, args, spread = e[1], e[2], e[3]
        sp = 'true' if spread else 'false'
        if f[0] == 'index' and f[2] == ('id', 'T') and f[1][0] == 'id' and (self.ps.pkg, f[1][1]) in self.funcs:
            f = f[1]                             # f[T](...), at the same type parameter
        if f[0] == 'type':
            return '(EConv %s %s)' % (q(f[1]), self.expr(args[0]))
        if f[0] == 'id' and f[1] not in self.scope and f[1] in BUILTINS:
            if f[1] == 'make':
                if args[0][0] == 'type': t = args[0][1]
                else: t = self.ps.typename(args[0])
                if t in self.types and isinstance(self.types[t][1], str): t = self.types[t][1]
                t = EXT_MAPS.get(t, t)
                return '(EMake %s %s)' % (q(t), lst([self.expr(a) for a in args[1:]]))
            if f[1] in CONVS: return '(EConv %s %s)' % (q(f[1]), self.expr(args[0]))
            return '(ECall (EExt %s) %s %s)' % (q(f[1]), lst([self.expr(a) for a in args]), sp)
        a = lst([self.expr(x) for x in args])
        if f[0] == 'sel' and f[1][0] == 'id' and self.ptypes.get(f[1][1]) in self.named_slices:
            # a method of a named slice type: the receiver's static type decides
            return '(ECall (EFun %s) %s %s)' % (q(self.ptypes[f[1][1]] + '.' + f[2]),
                lst([self.expr(f[1])] + [self.expr(x) for x in args]), sp)
        if f[0] == 'sel' and not self.pkg_of(f[1]):
            return '(EMethod %s %s %s %s)' % (self.expr(f[1]), q(f[2]), a, sp)
        return '(ECall %s %s %s)' % (self.expr(f), a, sp)
    def lit(self, addr, t, body):
        if t.startswith('[]'):
            el = t[2:]
            vs = [self.lit(False, el, v[1]) if v[0] == 'elided' else self.expr(v) for _, v in body]
            if any(k for k, _ in body): raise Err('keyed slice literal')
            return '(ESliceLit %s %s)' % (q(t), lst(vs))
        if t.startswith('map['):
            el = t[t.index(']') + 1:]
            kvs = []
            for k, v in body:
                kvs.append('(%s, %s)' % (self.expr(k), self.lit(False, el, v[1]) if v[0] == 'elided'
                                         else self.expr(v)))
            return '(EMapLit %s)' % lst(kvs)
        if t == 'struct{}': return '(ELit false "struct{}" [])'
        fields = [f for f, _ in self.types[t][1][1]]
        if body and body[0][0] is None:
            if len(body) != len(fields): raise Err('positional literal of ' + t)
            pairs = list(zip(fields, [v for _, v in body]))
        else: pairs = [(k[1], v) for k, v in body]
        for f, _ in pairs:
            if f not in fields: raise Err('field ' + f)
        return '(ELit %s %s %s)' % ('true' if addr else 'false', q(t),
                                    lst(['(%s, %s)' % (q(f), self.expr(v)) for f, v in pairs]))
    def func(self, e):
        _, ps, var, rs, body = e
        saved = set(self.scope)
        # closures copy their environment: no captured variable may be assigned
        # later or in the closure
        free = self.assigned(body) & saved - {p for p, _ in ps}
        if free - self.local_defs(body) - self.boxed: raise Err('closure assigns %s' % free)
        self.captures.append(saved & self.mentioned(body))
        r = self.fundecl(ps, var, rs, body)
        self.scope = saved
        return '(EClosure %s)' % r
    # -- functions
    def fundecl(self, ps, var, rs, body):
        self.scope = set(self.scope) | {n for n, _ in ps if n} | {n for n, _ in rs if n}
        self.ptypes = {**self.ptypes, **{n: t for n, t in ps}}
        saved = self.results, self.rtypes
        self.results, self.rtypes = [n for n, _ in rs if n], [t for _, t in rs]
        b = self.stmt(body)
        self.results, self.rtypes = saved
        named = lst(['(%s, %s)' % (q(n), q(t)) for n, t in rs if n])
        return '(Fun %s %s %s\n    %s)' % (lst([q(n or '_') for n, _ in ps]),
                                         'true' if var else 'false', named, b)
    def assigned(self, s, acc=None):
        """variables assigned with = (or ++) anywhere in a statement"""
        acc = set() if acc is None else acc
        if isinstance(s, tuple):
            if s and s[0] == 'assign': acc |= {l[1] for l in s[1] if l[0] == 'id'}
            if s and s[0] == 'opassign' and s[1][0] == 'id': acc.add(s[1][1])
            for x in s: self.assigned(x, acc)
        elif isinstance(s, list):
            for x in s: self.assigned(x, acc)
        return acc
    def mentioned(self, s, acc=None):
        acc = set() if acc is None else acc
        if isinstance(s, tuple) and len(s) == 2 and s[0] == 'id': acc.add(s[1])
        elif isinstance(s, (tuple, list)):
            for x in s: self.mentioned(x, acc)
        return acc
    def closure_writes(self, s, acc=None):
        """variables of an enclosing function that a closure assigns"""
        acc = set() if acc is None else acc
        if isinstance(s, tuple) and s and s[0] == 'func':
            acc |= self.assigned(s[4]) - {p for p, _ in s[1] + s[3]} - self.local_defs(s[4]) - {'_'}
        if isinstance(s, (tuple, list)):
            for x in s: self.closure_writes(x, acc)
        return acc
    def declared(self, s, n):
        """how often the name is declared"""
        r = 0
        if isinstance(s, tuple) and s:
            if s[0] == 'define': r += sum(l == ('id', n) for l in s[1])
            if s[0] == 'var': r += s[1] == n
            if s[0] in ('rangefor',): r += sum(l == ('id', n) for l in s[1])
            if s[0] == 'func': r += sum(p == n for p, _ in s[1] + s[3])
            if s[0] == 'typeswitchstmt': r += s[1] == n
        if isinstance(s, (tuple, list)): r += sum(self.declared(x, n) for x in s)
        return r
    def local_defs(self, s, acc=None):
        acc = set() if acc is None else acc
        if isinstance(s, tuple):
            if s and s[0] == 'define': acc |= {l[1] for l in s[1]}
            if s and s[0] == 'var': acc.add(s[1])
            for x in s: self.local_defs(x, acc)
        elif isinstance(s, list):
            for x in s: self.local_defs(x, acc)
        return acc
    # -- statements
    def block(self, s):
        saved = set(self.scope)
        out = [self.stmt(x) for x in s[1]]
        self.scope = saved
        return '(SBlock %s)' % ('[' + ';\n     '.join(out) + ']')
    def declare(self, l):
        for e in l:
            if e[0] != 'id': raise Err('define of a non-identifier')
            if e[1] != '_': self.scope = self.scope | {e[1]}
    def lhs(self, e):
        if e == ('id', '_'): return 'LBlank'
        if e[0] == 'id':
            if e[1] not in self.scope: raise Err('assignment to package variable ' + e[1])
            if e[1] in self.boxed: return '(LField (ELoc %s) "v")' % q(e[1])
            for c in self.captures:
                if e[1] in c and e[1] not in self.results: raise Err('captured variable %s assigned' % e[1])
            return '(LLoc %s)' % q(e[1])
        if e[0] == 'sel': return '(LField %s %s)' % (self.expr(e[1]), q(e[2]))
        if e[0] == 'index': return '(LIndex %s %s)' % (self.expr(e[1]), self.expr(e[2]))
        raise Err('left-hand side')
    def stmt(self, s):
        k = s[0]
        if k == 'block': return self.block(s)
        if k == 'expr' and s[1][0] == 'call' and s[1][1] == ('id', 'copy'):
            dst, src = s[1][2]
            if dst[0] != 'slice' or dst[1][0] != 'id' or dst[3] is not None: raise Err('copy')
            return '(SCopy %s %s %s)' % (q(dst[1][1]), self.expr(dst[2]), self.expr(src))
        if k == 'expr': return '(SExpr %s)' % self.expr(s[1])
        if k == 'define' and any(l[1] in self.boxed for l in s[1]):
            if len(s[1]) != 1: raise Err('definition of a boxed variable')
            r = self.expr(s[2][0])
            self.declare(s[1])
            return '(SDefine [%s] [ELit true "box" [("v", %s)]])' % (q(s[1][0][1]), r)
        if k == 'define':
            r = lst([self.expr(x) for x in s[2]])
            self.declare(s[1])
            return '(SDefine %s %s)' % (lst([q(l[1]) for l in s[1]]), r)
        if k == 'assign':
            r = lst([self.expr(x) for x in s[2]])
            return '(SAssign %s %s)' % (lst([self.lhs(l) for l in s[1]]), r)
        if k == 'opassign':
            if s[1][0] != 'id': raise Err('op-assignment')
            return '(SAssign [%s] [%s])' % (self.lhs(s[1]), self.expr(('bin', s[2], s[1], s[3])))
        if k == 'var':
            self.scope = self.scope | {s[1]}
            if s[1] in self.boxed:
                if s[2] != 'error': raise Err('boxed variable of type ' + s[2])
                return '(SDefine [%s] [ELit true "box" [("v", ENil)]])' % q(s[1])
            return '(SVar %s %s)' % (q(s[1]), q(s[2]))
        if k == 'return':
            if not s[1]: return '(SReturn %s)' % lst([self.name(n) for n in self.results])
            # a constant returned as a template.HTML or HTMLAttr is converted to it
            conv = ('html/template.HTML', 'html/template.HTMLAttr')
            r = [self.expr(x) for x in s[1]]
            if len(r) == len(self.rtypes):
                r = ['(ECall (EExt %s) [%s] false)' % (q(t), x) if t in conv else x for x, t in zip(r, self.rtypes)]
            return '(SReturn %s)' % lst(r)
        if k == 'break': return 'SBreak'
        if k == 'continue': return 'SContinue'
        saved = set(self.scope)
        if k == 'if':
            init = opt(s[1] and self.stmt(s[1]))
            c = self.expr(s[2])
            # an element of a map[string]bool: false if it is missing
            if s[2][0] == 'index': c = '(EConv "bool" %s)' % c
            r = '(SIf %s %s\n     %s\n     %s)' % (init, c, self.stmt(s[3]),
                                                  self.stmt(s[4]) if s[4] else 'SSkip')
        elif k == 'for':
            init = opt(s[1] and self.stmt(s[1]))
            c = self.expr(s[2]); post = self.stmt(s[3]) if s[3] else 'SSkip'
            r = '(SFor %s %s %s\n     %s)' % (init, c, post, self.stmt(s[4]))
        elif k == 'rangefor':
            if s[2] != ':=' or len(s[1]) > 2: raise Err('range clause')
            e = self.expr(s[3]); self.declare(s[1])
            names = [q(v[1]) for v in s[1]] + ['"_"'] * (2 - len(s[1]))
            r = '(SRange %s %s %s\n     %s)' % (names[0], names[1], e, self.stmt(s[4]))
        elif k == 'switchstmt':
            tag = self.expr(s[1])
            cs = lst(['(%s, %s)' % (lst([self.expr(x) for x in ls]), self.stmt(b)) for ls, b in s[2]])
            r = '(SSwitch %s %s %s)' % (tag, cs, self.stmt(s[3]) if s[3] else 'SSkip')
            if any(self.has_break(b) for _, b in s[2]): raise Err('break in switch')
        elif k == 'typeswitchstmt':
            e = self.expr(s[2])
            if s[1]: self.scope = self.scope | {s[1]}
            for ls, b in s[3]:
                if len(ls) != 1: raise Err('several types in one case')
                if self.has_break(b): raise Err('break in switch')
            cs = '[' + ';\n     '.join('(%s, %s)' % (q(ls[0]), self.stmt(b)) for ls, b in s[3]) + ']'
            r = '(STypeSwitch %s %s %s\n     %s)' % (q(s[1] or '_'), e, cs,
                                                     self.stmt(s[4]) if s[4] else 'SSkip')
        else: raise Err('statement %r' % (k,))
        self.scope = saved
        return r
    def has_break(self, s):
        if isinstance(s, tuple):
            if s == ('break',): return True
            if s and s[0] in ('for', 'rangefor'): return False
            return any(self.has_break(x) for x in s)
        return isinstance(s, list) and any(self.has_break(x) for x in s)

def main():
    parsed, sources = [], []
    types = set()
    for pkg, f, _ in FILES + LIB:
        for m in re.finditer(r'^type\s+(\w+)', open(REPO + '/' + f).read(), re.M): types.add(m.group(1))
    for pkg, f, only in FILES + LIB:
        src = open(REPO + '/' + f).read()
        ps = Parser(pkg, src); ps.types = types; ps.fname = f
        try: ps.file()
        except Err as e: raise Err('%s: %s' % (f, e))
        if only is not None:
            ps.decls = [d for d in ps.decls
                        if (d[0] == 'func' and d[1] is None and d[2] in only) or
                           (d[0] == 'var' and d[1] in only)]
            if len(ps.decls) != len(only): raise Err('%s: names not found' % f)
        parsed.append(ps)
    P = Printer(parsed)
    what, skip = ('packages html, svg, css and htmx', SKIP_LIB) if LIBRARY else ('rendering core', SKIP)
    out = ['''(** GENERATED by tools/go2rocq.py from the Go files of the %s; do
    not edit.  One definition per Go function, in the syntax of [GoSyntax.v];
    the meaning of the trees is defined in [GoSem.v].  Left out: %s. *)
From Coq Require Import ZArith.
From Verif Require Import Bytes GoSyntax%s.
Open Scope string_scope.
Open Scope Z_scope.
Open Scope list_scope.
''' % (what, ', '.join('%s.%s' % x for x in sorted(skip)) or 'nothing', '' if LIBRARY else ' SourceLib')]
    library = {f for _, f, _ in LIB}
    funcs, globs, consts, structs, ifaces = [], [], [], [], []
    for ps in parsed:
        if (ps.fname in library) != LIBRARY: continue
        P.ps = ps
        for d in ps.decls:
            P.scope, P.results, P.rtypes, P.captures, P.ptypes, P.boxed = set(), [], [], [], {}, set()
            if d[0] == 'type':
                if isinstance(d[2], tuple) and d[2][0] == 'struct': structs.append((d[1], d[2][1]))
                if isinstance(d[2], tuple) and d[2][0] == 'interface': ifaces.append((d[1], d[2][1]))
            elif d[0] == 'const':
                consts.append((ps.pkg + '.' + d[1], P.expr(d[2])))
            elif d[0] == 'var':
                globs.append((ps.pkg + '.' + d[1], P.expr(d[2])))
            elif d[0] == 'func':
                _, recv, name, pars, var, rs, body, line = d
                if (ps.pkg, name) in SKIP_LIB: continue
                if recv:
                    rt = recv[1].lstrip('*')
                    key = rt + '.' + name
                    pars = [recv] + pars
                    cn = 'm_%s_%s' % (rt, name)
                else:
                    key = ps.pkg + '.' + name; cn = 'f_%s_%s' % (ps.pkg, name)
                # variables that closures assign live in the heap
                P.boxed = P.closure_writes(body)
                for n in P.boxed:
                    if P.declared(body, n) != 1 or any(p == n for p, _ in pars + rs):
                        raise Err('%s: %s: closures assign %s' % (ps.fname, name, n))
                try: body = P.fundecl(pars, var, rs, body)
                except Err as e: raise Err('%s: %s: %s' % (ps.fname, name, e))
                loc = '%s:%d' % (ps.fname, line)
                out.append('(** %s *)\nDefinition %s : fundecl :=\n  %s.\n' % (loc, cn, body))
                funcs.append((key, cn))
    def table(name, typ, rows):
        out.append('Definition %s : list (string * %s) :=\n  [%s].\n' %
                   (name, typ, ';\n   '.join('(%s, %s)' % (q(k), c) for k, c in rows)))
    if LIBRARY:
        if structs or ifaces: raise Err('type')
        table('lib_funcs', 'fundecl', funcs)
        table('lib_globals', 'expr', globs)
        table('lib_consts', 'expr', consts)
        print('\n'.join(out).rstrip())
        return
    table('the_funcs', 'fundecl', funcs)
    table('the_globals', 'expr', globs)
    table('the_structs', 'list (string * string)',
          [(n, lst(['(%s, %s)' % (q(f), q(t)) for f, t in fs])) for n, fs in structs] + [('box', '[("v", "any")]')])
    table('the_ifaces', 'list string', [(n, lst([q(m) for m in ms])) for n, ms in ifaces])
    out.append('Definition source : program := Program (the_funcs ++ lib_funcs) (the_globals ++ lib_globals) the_structs the_ifaces.')
    print('\n'.join(out))

try: main()
except Err as e:
    sys.exit('go2rocq: ' + str(e))
