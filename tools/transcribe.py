#!/usr/bin/env python3
"""Transcribe function bodies of hash-roll (Rust) into terms of the type `expr` of rocq/theories/Rust.v.

usage: transcribe.py /repo/src > rocq/theories/RustText.v
       transcribe.py /repo/src /repo > rocq/theories/DriverText.v     (callers in the tests and the documentation)

A parser for the part of Rust the crate uses, type inference for what the syntax leaves open (the type of a literal,
the target of `.into()` and `Default::default()`), and a printer.  No simplification is done.
"""
import re, sys, os

FILES = ['range', 'lib', 'mii', 'ram', 'gear', 'pigz', 'gzip', 'fastcdc', 'bup', 'buzhash', 'buzhash_table', 'gear_table/gear32', 'gear_table/gear64', 'zpaq', 'zstd']
SRC = sys.argv[1]

# ---------------------------------------------------------------- tokens
TOK = re.compile(r'''
  (?P<ws>\s+|//[^\n]*)
 |(?P<float>\d+f64)
 |(?P<int>0x[0-9a-fA-F_]+|0b[01_]+|\d[\d_]*)(?P<suf>u8|u32|u64|usize)?
 |(?P<life>'[a-z_]+(?!'))
 |(?P<str>"(?:[^"\\]|\\.)*")
 |(?P<id>[A-Za-z_]\w*)
 |(?P<op><<=|>>=|\.\.=|::|->|=>|==|!=|<=|>=|&&|\|\||<<|>>|\+=|-=|\*=|/=|%=|&=|\|=|\^=|\.\.|[-+*/%&|^!<>=.,;:()\[\]{}\#?$@])
''', re.X)

def lex(s, fname):
    out, i, line = [], 0, 1
    while i < len(s):
        if s.startswith('/*', i):
            d, j = 1, i + 2
            while d:
                if s.startswith('/*', j): d += 1; j += 2
                elif s.startswith('*/', j): d -= 1; j += 2
                else: j += 1
            line += s.count('\n', i, j); i = j; continue
        m = TOK.match(s, i)
        if not m: raise SyntaxError('%s:%d: %r' % (fname, line, s[i:i+20]))
        if m.group('ws') is None:
            k = next(k for k in ('float', 'int', 'life', 'str', 'id', 'op') if m.group(k))
            out.append((k, m.group(k), m.group('suf'), line))
        line += m.group().count('\n'); i = m.end()
    out.append(('eof', '', None, line))
    return out

# ---------------------------------------------------------------- types
# ('int',t) ('wrap',T) ('ref',T) ('list',T) ('struct',name) ('con',name,[T]) ('bool',) ('var',n) ('param',name) ('assoc',name) ('f64',)
INTS = {'u8': 'U8', 'u32': 'U32', 'u64': 'U64', 'usize': 'Usize'}
UNIT, BOOL = ('con', '()', []), ('bool',)
def OPT(t): return ('con', 'Option', [t])
def PAIR(*ts): return ('con', ',', list(ts))
def INT(t): return ('int', t)

class P:
    """Parser of one file."""
    def __init__(self, name):
        self.name = name; self.toks = lex(open(os.path.join(SRC, name + '.rs')).read(), name); self.i = 0; self.file = 'src/%s.rs' % name
    def peek(self, k=0): return self.toks[min(self.i + k, len(self.toks) - 1)][1]
    def kind(self, k=0): return self.toks[min(self.i + k, len(self.toks) - 1)][0]
    def line(self): return self.toks[self.i][3]
    def next(self): t = self.toks[self.i]; self.i += 1; return t[1]
    def at(self, s): return self.peek() == s and self.kind() in ('op', 'id')
    def eat(self, s):
        if self.at(s): self.i += 1; return True
        return False
    def expect(self, s):
        if not self.eat(s): self.err('expected %s' % s)
    def err(self, m): raise SyntaxError('%s.rs:%d: %s near %r' % (self.name, self.line(), m, ' '.join(t[1] for t in self.toks[self.i:self.i+8])))
    def split_op(self, first):
        """split a token such as `>>` or `&&` so that `first` can be eaten"""
        t = self.toks[self.i]
        if t[0] == 'op' and t[1] != first and t[1].startswith(first):
            self.toks[self.i:self.i+1] = [('op', first, None, t[3]), ('op', t[1][len(first):], None, t[3])]
    def attrs(self):
        out = []
        while self.at('#'):
            self.next(); self.eat('!'); self.expect('['); d = 1; s = []
            while d:
                t = self.next()
                if t == '[': d += 1
                elif t == ']': d -= 1
                if d: s.append(t)
            out.append(''.join(s))
        return out
    def generics(self):
        """skip <...>, returning the names of type parameters"""
        ps = []
        if not self.eat('<'): return ps
        d, start = 1, True
        while d:
            self.split_op('>') if self.peek().startswith('>') else None
            k, t = self.kind(), self.next()
            if t == '<': d += 1
            elif t == '>': d -= 1
            elif d == 1 and start and k == 'id': ps.append(t)
            start = d == 1 and t == ','
        return ps

    # ---- types
    def type(self):
        self.split_op('&')
        if self.eat('&'):
            if self.kind() == 'life': self.next()
            self.eat('mut')
            return ('ref', self.type())
        if self.eat('('):
            ts = []
            while not self.eat(')'):
                ts.append(self.type()); self.eat(',')
            return PAIR(*ts) if ts else UNIT
        if self.eat('['):
            t = self.type()
            if self.eat(';'): self.expr()
            self.expect(']'); return ('list', t)
        if self.eat('impl'):
            t = self.type()
            while self.eat('+'): self.type()
            return t
        self.eat('dyn'); self.eat('::')
        path, args = [self.next()], []
        while True:
            if self.at('::') : self.next(); path.append(self.next()); continue
            if self.at('<'):
                self.next(); args = []
                while True:
                    if self.peek().startswith('>'): self.split_op('>')
                    if self.eat('>'): break
                    if self.kind() == 'life': self.next()
                    elif self.kind() == 'id' and self.peek(1) == '=': self.i += 2; self.type()
                    else: args.append(self.type())
                    self.eat(',')
                continue
            break
        n = path[-1]
        if n in INTS: return INT(INTS[n])
        if n == 'bool': return BOOL
        if n == 'f64': return ('f64',)
        if n == 'Wrapping': return ('wrap', args[0])
        if n == 'Option': return OPT(args[0])
        if n in ('Box',): return args[0]
        if n in ('VecDeque', 'Vec'): return ('list', args[0])
        if n == 'Bound': return ('con', 'Bound', args)
        if n == 'RangeBounds': return ('con', 'Ranges', args)
        if len(path) == 2 and path[0] == 'Self': return ('assoc', n)
        return ('struct', n)

    # ---- items
    def items(self, prog, stop='eof'):
        while self.kind() != 'eof' and not self.at(stop):
            at = self.attrs(); line = self.line()
            if self.eat('pub') and self.eat('('):
                while not self.eat(')'): self.next()
            if self.at('use'):
                while not self.eat(';'): self.next()
            elif self.at('const') or self.at('static'):
                self.next(); n = self.next(); self.expect(':'); t = self.type(); self.expect('=')
                if self.at('['): e = None; prog.tables.append((n, t[1], [int(x[1]) for x in self.expr()[1]], self.name, line))
                else: e = self.expr()
                self.expect(';'); prog.consts[n] = (t, e, self.name, line)
            elif self.eat('struct'):
                n = self.next(); gs = self.generics(); fs = []
                self.expect('{')
                while not self.eat('}'):
                    self.attrs(); self.eat('pub'); f = self.next(); self.expect(':'); fs.append((f, self.type())); self.eat(',')
                prog.structs[n] = fs; prog.params.update({g: 1 for g in gs})
                if any('derive' in a and 'Default' in a for a in at): prog.derived_default.append((n, self.name, line))
            elif self.eat('mod'):
                self.next()
                if not self.eat(';'): self.skip_group()
            elif self.eat('impl') or self.at('trait'):
                trait = self.eat('trait')
                gs = self.generics()
                if trait: tr, ty = None, ('struct', self.next()); gs += self.generics() + ['Self']
                else:
                    tr, ty = None, self.type()
                    if self.eat('for'): tr, ty = ty, self.type()
                if trait and self.eat(':'): self.type()
                self.where()
                self.impl(prog, tr, ty, gs, trait)
            elif self.eat('fn'):
                self.fn(prog, None, None, [], line, False, at)
            elif self.eat(';'): pass
            else: self.err('item')
    def where(self):
        if self.eat('where'):
            while not self.at('{') and not self.at(';'): self.next()
    def skip_group(self):
        d = 0
        while True:
            t = self.next()
            if t in '([{': d += 1
            elif t in ')]}': d -= 1
            if d == 0: return
    def impl(self, prog, tr, ty, gs, trait):
        self.expect('{'); assoc = {}
        name = ty[1]
        if ty[0] == 'struct' and name in gs: prog.params[name] = 1
        trn = tr[1] if tr else None
        while not self.eat('}'):
            at = self.attrs(); line = self.line()
            self.eat('pub')
            if self.eat('('):
                while not self.eat(')'): self.next()
            if self.eat('type'):
                n = self.next()
                if self.eat(':'): self.type()
                if self.eat('='): assoc[n] = self.type()
                self.expect(';')
            elif self.eat('fn'): self.fn(prog, (tr, ty, trait), assoc, gs, line, trn in ('Debug',), at)
            else: self.err('impl item')
    def fn(self, prog, impl, assoc, gs, line, skip, at):
        n = self.next(); gs = gs + self.generics(); self.expect('('); ps = []
        ty = impl[1] if impl else None
        while not self.eat(')'):
            mut = False
            if self.at('&') and self.peek(1) == 'self': self.i += 2; ps.append(('self', ('ref', ty), False))
            elif self.at('&') and self.peek(1) == 'mut' and self.peek(2) == 'self': self.i += 3; ps.append(('self', ('ref', ty), True))
            elif self.at('self'): self.next(); ps.append(('self', ty, False))
            else:
                self.eat('mut')
                if self.at('('): p = self.pattern()
                else: p = self.next()
                self.expect(':')
                mut = self.at('&') and (self.peek(1) == 'mut' or (self.kind(1) == 'life' and self.peek(2) == 'mut'))
                ps.append((p, self.type(), mut))
            self.eat(',')
        rt = self.type() if self.eat('->') else UNIT
        self.where()
        if self.eat(';'): return
        body = self.block(); end = self.toks[self.i-1][3]
        if skip: return
        prog.fns.append(dict(name=n, impl=impl, assoc=assoc, gs=gs, params=ps, ret=rt, body=body, file=self.name, line=line, end=end))

    # ---- expressions
    def block(self):
        line = self.line(); self.expect('{'); es = []
        while not self.eat('}'):
            if self.eat(';'): continue
            self.attrs()
            if self.at('let'): es.append(self.let()); self.expect(';'); last = 'stmt'; continue
            if self.at('use'):
                while not self.eat(';'): self.next()
                continue
            if self.eat('const'):                              # a constant of the function
                n = self.next(); self.expect(':'); t = self.type(); self.expect('='); es.append(('let', n, t, self.expr())); self.expect(';'); last = 'stmt'; continue
            e = self.expr(stmt=True)
            if self.eat(';'): es.append(e); last = 'stmt'
            elif self.at('}'): es.append(e); last = 'tail'
            elif e[0] in ('if', 'match', 'for', 'loop', 'block'): es.append(e); last = 'stmt'
            else: self.err('; expected')
        if es and last == 'stmt' and es[-1][0] not in ('return', 'break'): es.append(('unit',))
        return ('block', es, line)
    def let(self):
        self.expect('let'); self.eat('mut')
        p = self.pattern(); t = None
        if self.eat(':'): t = self.type()
        self.expect('='); e = self.expr()
        return ('let', p, t, e)
    def pattern(self):
        self.split_op('&')
        if self.eat('&'): return self.pattern()
        if self.eat('ref'): return self.pattern()
        if self.eat('mut'): return self.pattern()
        if self.eat('('):
            ps = []
            while not self.eat(')'): ps.append(self.pattern()); self.eat(',')
            return ('ptuple', ps)
        n = self.next()
        while self.eat('::'): n = self.next()
        if self.eat('('):
            ps = []
            while not self.eat(')'): ps.append(self.pattern()); self.eat(',')
            return ('pcon', n, ps)
        if n[0].isupper(): return ('pcon', n, [])
        return n
    BIN = [['||'], ['&&'], ['==', '!=', '<', '>', '<=', '>='], ['|'], ['^'], ['&'], ['<<', '>>'], ['+', '-'], ['*', '/', '%']]
    def expr(self, nostruct=False, stmt=False):
        if self.at('return'):
            self.next()
            return ('return', ('unit',) if self.at(';') or self.at('}') else self.expr())
        if self.eat('break'): return ('break',)
        if stmt and (self.at('if') or self.at('match') or self.at('for') or self.at('loop') or self.at('{')):
            return self.primary(nostruct)      # a block-like statement ends at its brace
        l = self.range(nostruct)
        if self.eat('='): return ('assign', l, self.expr(nostruct))
        for o in ('+=', '-=', '*=', '%=', '^=', '|=', '&=', '<<=', '>>='):
            if self.eat(o): return ('opassign', o[:-1], l, self.expr(nostruct))
        return l
    def range(self, ns):
        if self.at('..'):
            self.next()
            return ('range', None, None if self.at(']') else self.binary(0, ns))
        l = self.binary(0, ns)
        if self.eat('..'):
            return ('range', l, None if self.at(']') or self.at('{') else self.binary(0, ns))
        return l
    def binary(self, k, ns):
        if k == len(self.BIN): return self.casts(ns)
        l = self.binary(k + 1, ns)
        while self.kind() == 'op' and self.peek() in self.BIN[k]:
            line = self.line(); o = self.next(); l = ('bin', o, l, self.binary(k + 1, ns), line)
        return l
    def casts(self, ns):
        e = self.unary(ns)
        while self.eat('as'): e = ('cast', e, self.type())
        return e
    def unary(self, ns):
        self.split_op('&')
        if self.eat('&'):
            self.eat('mut'); return ('refto', self.unary(ns))
        if self.eat('*'): return ('deref', self.unary(ns))
        if self.eat('!'): return ('not', self.unary(ns))
        return self.postfix(ns)
    def args(self):
        a = []
        while not self.eat(')'): a.append(self.expr()); self.eat(',')
        return a
    def postfix(self, ns):
        e = self.primary(ns)
        while True:
            if self.eat('.'):
                line = self.line()
                if self.kind() == 'int': e = ('field', e, self.next()); continue
                n = self.next()
                if self.eat('('): e = ('method', e, n, self.args(), line)
                else: e = ('field', e, n)
            elif self.at('['):
                self.next(); i = self.expr(); self.expect(']'); e = ('index', e, i)
            else: return e
    def primary(self, ns):
        k, t, suf, line = self.toks[self.i]
        if k == 'int':
            self.next(); return ('lit', int(t.replace('_', ''), 0), suf, line)
        if k == 'float': self.next(); return ('float', t)
        if k == 'str': self.next(); return ('strlit', t)
        if self.eat('('):
            es, comma = [], False
            while not self.eat(')'):
                es.append(self.expr()); comma = self.eat(',') or comma
            if len(es) == 1 and not comma: return ('paren', es[0])
            return ('tuple', es) if es else ('unit',)
        if self.eat('['):
            if self.eat(']'): return ('array', [])
            e = self.expr()
            if self.eat(';'): n = self.expr(); self.expect(']'); return ('repeat', e, n)
            es = [e]
            while self.eat(','):
                if not self.at(']'): es.append(self.expr())
            self.expect(']'); return ('array', es)
        if self.at('{'): return self.block()
        if self.eat('if'):
            c = self.expr(nostruct=True); th = self.block(); el = None
            if self.eat('else'): el = self.primary(False) if self.at('if') else self.block()
            return ('if', c, th, el)
        if self.eat('match'):
            s = self.expr(nostruct=True); self.expect('{'); arms = []
            while not self.eat('}'):
                p = self.pattern(); self.expect('=>')
                e = self.block() if self.at('{') else self.expr()
                self.eat(','); arms.append((p, e))
            return ('match', s, arms)
        if self.eat('for'):
            p = self.pattern(); self.expect('in'); it = self.expr(nostruct=True)
            return ('for', p, it, self.block())
        if self.eat('loop'): return ('loop', self.block())
        if self.eat('true'): return ('bool', True)
        if self.eat('false'): return ('bool', False)
        if t == 'b' and self.kind(1) == 'str': self.i += 2; return ('bytestr', line)
        if k == 'id' or t == '::':
            self.eat('::'); path, tas = [self.next()], None
            while self.at('::'):
                self.next()
                if self.at('<'):
                    self.next(); tas = []
                    while not self.eat('>'): tas.append(self.type()); self.eat(',')
                else: path.append(self.next())
            if self.at('!'):                                   # macro
                self.next(); n = path[0]
                if self.eat('['):
                    e = self.expr(); self.expect(';'); c = self.expr(); self.expect(']')
                    return ('repeat', e, c)
                self.expect('('); return ('macro', n, self.args())
            if self.at('(') : self.next(); return ('call', path, tas, self.args(), line)
            if self.at('{') and not ns and (path[0][0].isupper()):
                self.next(); fs = []
                while not self.eat('}'):
                    f = self.next(); fs.append((f, self.expr() if self.eat(':') else ('path', [f]))); self.eat(',')
                return ('struct', path, fs)
            return ('path', path)
        self.err('expression')

class Prog:
    def __init__(self):
        self.structs, self.consts, self.fns, self.derived_default, self.params = {}, {}, [], [], {}
        self.tables = []

# ---------------------------------------------------------------- inference and printing
def q(s): return '"%s"' % s

class Unknown(Exception): pass

class T:
    """Translate one function: first pass unifies types, then the delayed output is forced."""
    def __init__(self, prog, f):
        self.prog, self.f, self.sub, self.n = prog, f, {}, 0
        self.impl = f['impl']; self.assoc = f['assoc'] or {}
        self.self_ty = self.impl[1] if self.impl else None
    def fresh(self): self.n += 1; return ('var', self.n)
    def res(self, t):
        while t[0] == 'var' and t[1] in self.sub: t = self.sub[t[1]]
        if t[0] == 'assoc':
            if t[1] in self.assoc: return self.res(self.assoc[t[1]])
            return t
        if t == ('struct', 'Self'): return self.res(self.self_ty)
        return t
    def strip(self, t):
        t = self.res(t)
        while t[0] == 'ref': t = self.res(t[1])
        return t
    def unify(self, a, b):
        a, b = self.res(a), self.res(b)
        if a == b: return
        if a[0] == 'var': self.sub[a[1]] = b; return
        if b[0] == 'var': self.sub[b[1]] = a; return
        if a[0] == 'ref' or b[0] == 'ref': self.unify(self.strip(a), self.strip(b)); return
        if a[0] == 'never' or b[0] == 'never': return
        if a[0] == b[0] == 'list' or a[0] == b[0] == 'wrap': self.unify(a[1], b[1]); return
        if a[0] == b[0] == 'con' and 'Ranges' in (a[1], b[1]):
            x, y = (a, b) if a[1] == 'Ranges' else (b, a)
            for t in y[2]: self.unify(x[2][0], t[2][0] if t[0] == 'con' else t)
            return
        if a[0] == b[0] == 'con' and a[1] == b[1] and len(a[2]) == len(b[2]):
            for x, y in zip(a[2], b[2]): self.unify(x, y)
            return
        # type parameters stand for anything
        for t in (a, b):
            if t[0] == 'struct' and t[1] in self.f['gs']: return
        raise Unknown('%s:%d: cannot unify %r %r' % (self.f['file'], self.f['line'], a, b))
    def lookup_fn(self, owner, name):
        c = [g for g in self.prog.fns if g['name'] == name and g['impl'] and g['impl'][1][1] == owner]
        return c[0] if c else None
    def sig(self, g, own):
        """parameter and result types of g, associated types resolved"""
        def r(t):
            if t[0] == 'assoc' and g['assoc'] and t[1] in g['assoc']: return r(g['assoc'][t[1]])
            if t == ('struct', 'Self'): return g['impl'][1]
            if t[0] == 'struct' and t[1] in g['gs']: return self.fresh()
            if t[0] in ('ref', 'list', 'wrap'): return (t[0], r(t[1]))
            if t[0] == 'con': return ('con', t[1], [r(x) for x in t[2]])
            return t
        return [r(p[1]) for p in g['params']], r(g['ret'])

    # each method returns (type, thunk printing the term)
    def go(self, e, env, exp=None):
        t, k = getattr(self, 'e_' + e[0])(e, env, exp)
        if exp is not None: self.unify(exp, t)
        return t, k
    def intname(self, t, line):
        t = self.strip(t)
        if t[0] == 'var' and self.f.get('i32'): return 'U32'      # no suffix and no constraint: `i32`; here only a counter up to 6
        if t[0] != 'int': raise Unknown('%s.rs:%d: integer type not determined: %r' % (self.f['file'], line, t))
        return t[1]
    def e_lit(self, e, env, exp):
        t = INT(INTS[e[2]]) if e[2] else self.fresh()
        return t, lambda: 'Lit %s %d' % (self.intname(t, e[3]), e[1])
    def e_bool(self, e, env, exp): return BOOL, lambda: 'BoolLit %s' % str(e[1]).lower()
    def e_unit(self, e, env, exp): return UNIT, lambda: 'Con "()" []'
    def e_paren(self, e, env, exp): return self.go(e[1], env, exp)
    def e_refto(self, e, env, exp):
        t, k = self.go(e[1], env)
        return ('ref', t), k
    def e_deref(self, e, env, exp):
        t, k = self.go(e[1], env)
        t = self.res(t)
        return (t[1] if t[0] == 'ref' else t), k
    def e_not(self, e, env, exp):
        t, k = self.go(e[1], env, BOOL); return BOOL, lambda: 'Not (%s)' % k()
    def e_path(self, e, env, exp):
        p = e[1]
        if len(p) == 1 and p[0] in env: return env[p[0]], lambda: 'Var %s' % q(p[0])
        n = p[-1]
        if n == 'None': return OPT(self.fresh()), lambda: 'Con "None" []'
        if n in ('Unbounded',): return ('con', 'Bound', [self.fresh()]), lambda: 'Con "%s" []' % n
        if n in self.prog.consts: return self.prog.consts[n][0], lambda: 'Call %s []' % q(n)
        raise Unknown('%s: name %r' % (self.f['file'], p))
    def e_field(self, e, env, exp):
        t, k = self.go(e[1], env); s = self.strip(t)
        if s[0] == 'wrap': ft = s[1]
        elif s[0] == 'struct': ft = dict(self.prog.structs[s[1]])[e[2]]
        else: raise Unknown('field %r of %r' % (e[2], s))
        return ft, lambda: 'Field (%s) %s' % (k(), q(e[2]))
    def e_index(self, e, env, exp):
        t, k = self.go(e[1], env); s = self.strip(t)
        if s[0] != 'list': raise Unknown('index of %r' % (s,))
        if e[2][0] == 'range':
            _, lo, hi = e[2]
            lk = self.go(lo, env, INT('Usize'))[1] if lo else None
            hk = self.go(hi, env, INT('Usize'))[1] if hi else None
            if lk and hk: return t, lambda: 'Slice (%s) (%s) (%s)' % (k(), lk(), hk())
            if lk: return t, lambda: 'SliceFrom (%s) (%s)' % (k(), lk())
            if hk: return t, lambda: 'SliceTo (%s) (%s)' % (k(), hk())
            return t, lambda: 'Prim Pclone [%s]' % k()
        _, ik = self.go(e[2], env, INT('Usize'))
        return s[1], lambda: 'Index (%s) (%s)' % (k(), ik())
    def e_cast(self, e, env, exp):
        t, k = self.go(e[1], env)
        if self.strip(e[2])[0] == 'f64' or self.strip(t)[0] == 'f64': raise Unknown('f64')
        return e[2], lambda: 'Cast %s (%s)' % (e[2][1], k())
    def e_float(self, e, env, exp): raise Unknown('f64')
    OPS = {'+': 'Add', '-': 'Sub', '*': 'Mul', '/': 'Div', '%': 'Rem', '<<': 'Shl', '>>': 'Shr', '&': 'BitAnd', '|': 'BitOr', '^': 'BitXor',
           '<': 'Lt', '<=': 'Le', '>': 'Gt', '>=': 'Ge', '==': 'Eq', '!=': 'Ne'}
    def e_bin(self, e, env, exp):
        _, o, a, b, line = e
        if o in ('&&', '||'):
            _, ka = self.go(a, env, BOOL); _, kb = self.go(b, env, BOOL)
            return BOOL, lambda: '%s (%s) (%s)' % ({'&&': 'And', '||': 'Or'}[o], ka(), kb())
        ta, ka = self.go(a, env)
        if o == '==' and b == ('path', ['None']):
            return BOOL, lambda: 'Match (%s) [(PCon "None" [], BoolLit true); (PWild, BoolLit false)]' % ka()
        if o in ('<<', '>>'):
            tb, kb = self.go(b, env)
            if self.strip(tb)[0] == 'var':       # `x << 1`: i32 by default; on Wrapping the amount is usize
                self.unify(tb, INT('Usize') if self.strip(ta)[0] == 'wrap' else INT('U32'))
            rt = ta
        else:
            tb, kb = self.go(b, env)
            self.unify(self.strip(ta), self.strip(tb))
            rt = BOOL if o in ('<', '<=', '>', '>=', '==', '!=') else self.strip(ta)
        return rt, lambda: 'Bin %s (%s) (%s)' % (self.OPS[o], ka(), kb())
    def e_tuple(self, e, env, exp):
        r = [self.go(x, env) for x in e[1]]
        return PAIR(*[t for t, _ in r]), lambda: 'Con "," [%s]' % '; '.join(k() for _, k in r)
    def e_range(self, e, env, exp):
        ta, ka = self.go(e[1], env); tb, kb = self.go(e[2], env); self.unify(ta, tb)
        return ('con', 'Ranges', [ta]), lambda: 'Con ".." [%s; %s]' % (ka(), kb())
    def e_array(self, e, env, exp):
        t = self.fresh(); r = [self.go(x, env, t) for x in e[1]]
        return ('list', t), lambda: 'ListLit [%s]' % '; '.join(k() for _, k in r)
    def e_repeat(self, e, env, exp):
        t, k = self.go(e[1], env); _, n = self.go(e[2], env, INT('Usize'))
        return ('list', t), lambda: 'Prim Prepeat [%s; %s]' % (k(), n())
    def struct_name(self, path):
        return self.res(self.self_ty)[1] if path[-1] == 'Self' else path[-1]
    def e_struct(self, e, env, exp):
        n = self.struct_name(e[1]); fts = dict(self.prog.structs[n])
        r = [(f, self.go(x, env, self.fresh_params(fts[f]))) for f, x in e[2]]
        order = [f for f, _ in self.prog.structs[n]]
        # printed in the order of evaluation (as written)
        return ('struct', n), lambda: 'StructLit %s [%s] [%s]' % (q(n), '; '.join(map(q, order)), '; '.join('(%s, %s)' % (q(f), k()) for f, (_, k) in r))
    def fresh_params(self, t):
        if t[0] == 'struct' and t[1] in self.prog.params: return self.fresh()
        if t[0] in ('ref', 'list', 'wrap'): return (t[0], self.fresh_params(t[1]))
        return t
    def call(self, name, g, argk, own=None):
        return lambda: 'Call %s [%s]' % (q(name), '; '.join(k() for k in argk))
    def e_call(self, e, env, exp):
        _, path, tas, args, line = e
        n = path[-1]
        if n == 'Some':
            t, k = self.go(args[0], env); return OPT(t), lambda: 'Con "Some" [%s]' % k()
        if n in ('Included', 'Excluded'):
            t, k = self.go(args[0], env); return ('con', 'Bound', [t]), lambda: 'Con "%s" [%s]' % (n, k())
        if n == 'Wrapping':
            t, k = self.go(args[0], env); return ('wrap', t), lambda: 'Wrapping (%s)' % k()
        if n == 'min' and path[-2] == 'cmp':
            t, k = self.go(args[0], env); _, k2 = self.go(args[1], env, t)
            return t, lambda: 'Prim Pmin [%s; %s]' % (k(), k2())
        if path == ['Box', 'new']:
            t, k = self.go(args[0], env); return t, lambda: 'Prim Pclone [%s]' % k()
        if path == ['VecDeque', 'with_capacity']:
            _, k = self.go(args[0], env, INT('Usize')); return ('list', self.fresh()), lambda: 'Prim Pwith_capacity [%s]' % k()
        if path == ['Vec', 'with_capacity']:
            _, k = self.go(args[0], env, INT('Usize')); return ('list', self.fresh()), lambda: 'Prim Pwith_capacity [%s]' % k()
        if path == ['Vec', 'new']: return ('list', self.fresh()), lambda: 'ListLit []'
        if n == 'thread_rng': return ('struct', 'ThreadRng'), lambda: 'Call "thread_rng" []'
        if n == 'test_data': ks = [self.go(a, env)[1] for a in args]; return ('list', INT('U8')), self.call(n, None, ks)
        if path == ['mem', 'swap']:
            t, k = self.go(args[0], env); _, k2 = self.go(args[1], env, t); return UNIT, lambda: 'Swap (%s) (%s)' % (k(), k2())
        if path == ['Default', 'default']:
            t = self.fresh(); return t, lambda: self.default_call(t)
        if path[0] == 'Into':
            t, k = self.go(args[0], env); return tas[0], lambda: self.into_call(t, tas[0], k())
        if len(path) == 3 and path[0] == 'Self' and n == 'default':
            t = self.res(('assoc', path[1])); return t, lambda: self.default_call(t)
        if n == 'from' and len(path) == 2:
            t, k = self.go(args[0], env); tt = ('struct', path[0]); return tt, lambda: self.into_call(t, tt, k())
        owner = self.struct_name(path[:-1]) if len(path) > 1 else None
        if n == 'default' and any(d[0] == owner for d in self.prog.derived_default): t = ('struct', owner); return t, lambda: self.default_call(t)
        if owner is None or path[0] in ('crate',):
            g = [g for g in self.prog.fns if g['name'] == n and not g['impl']]; g = g[0] if g else None; name = n
        else: g = self.lookup_fn(owner, n); name = owner + '::' + n
        if not g: raise Unknown('%s:%d: call %r' % (self.f['file'], line, path))
        pts, rt = self.sig(g, owner)
        ks = [self.go(a, env, pt)[1] for a, pt in zip(args, pts)]
        return rt, self.call(name, g, ks)
    def default_call(self, t):
        t = self.strip(t)
        if t[0] != 'struct': raise Unknown('default of %r' % (t,))
        return 'Call %s []' % q(t[1] + '::default')
    def refname(self, t):
        t = self.res(t)
        if t[0] == 'ref': return '&' + self.refname(t[1])
        if t[0] == 'struct': return t[1]
        if t[0] == 'list': return '[]'
        if t[0] == 'con': return '(..)'
        raise Unknown('refname %r' % (t,))
    def into_call(self, a, b, arg):
        return 'Call %s [%s]' % (q('%s::from<%s>' % (self.strip(b)[1], self.refname(a))), arg)
    def e_method(self, e, env, exp):
        _, r, n, args, line = e
        t, k = self.go(r, env); s = self.strip(t)
        def prim(p, rt, *more): return rt, lambda: 'Prim %s [%s]' % (p, '; '.join(x() for x in (k,) + more))
        if n == 'into':
            tt = self.fresh(); return tt, lambda: self.into_call(t, tt, k())
        if n == 'clone':
            g = self.res(t); return (g[1] if g[0] == 'ref' else g), lambda: 'Prim Pclone [%s]' % k()
        if n == 'into_boxed_slice': return prim('Pclone', t)
        if n == 'len' and s[0] == 'list': return prim('Plen', INT('Usize'))
        if n == 'is_empty' and s[0] == 'list': return prim('Pis_empty', BOOL)
        if n == 'saturating_sub': return prim('Psaturating_sub', s, self.go(args[0], env, s)[1])
        if n == 'rotate_left': return prim('Protate_left', s, self.go(args[0], env, INT('U32'))[1])
        if n == 'leading_zeros': return prim('Pleading_zeros', INT('U32'))
        if n == 'wrapping_pow': return prim('Pwrapping_pow', s, self.go(args[0], env, INT('U32'))[1])
        if n == 'try_into':
            tt = self.fresh(); return OPT(tt), lambda: 'Prim (Ptry_into %s) [%s]' % (self.intname(tt, line), k())
        if n == 'unwrap_or':
            dk = self.go(args[0], env, s[2][0])[1]
            return s[2][0], lambda: 'Match (%s) [(PCon "Some" ["x"], Var "x"); (PCon "None" [], %s)]' % (k(), dk())
        if n == 'push' and s[0] == 'list':
            ks = [self.go(a, env, s[1])[1] for a in args]
            return UNIT, lambda: 'MutPrim Mpush_back (%s) [%s]' % (k(), '; '.join(x() for x in ks))
        if n == 'fill_bytes': ak = self.go(args[0], env)[1]; return UNIT, lambda: 'Method "fill_bytes" [%s; %s]' % (k(), ak())
        if n == 'unwrap': return prim('Punwrap', s[2][0])
        if n in ('start_bound', 'end_bound'): 
            x = s[2][0] if s[0] == 'con' else self.fresh()
            return prim('P' + n, ('con', 'Bound', [('ref', x)]))
        if n == 'split_at': return prim('Psplit_at', PAIR(s, s), self.go(args[0], env, INT('Usize'))[1])
        if n in ('pop_front', 'push_back', 'clear'):
            ks = [self.go(a, env, s[1])[1] for a in args]
            return {'pop_front': OPT(s[1])}.get(n, UNIT), lambda: 'MutPrim M%s (%s) [%s]' % (n, k(), '; '.join(x() for x in ks))
        if n == 'copy_from_slice':
            assert r[0] == 'index' and r[2][0] == 'range'
            pk = self.go(r[1], env)[1]; lo = self.go(r[2][1], env, INT('Usize'))[1]; hi = self.go(r[2][2], env, INT('Usize'))[1]
            sk = self.go(args[0], env)[1]
            return UNIT, lambda: 'CopyFromSlice (%s) (%s) (%s) (%s)' % (pk(), lo(), hi(), sk())
        # a method of the crate
        owners = [g for g in self.prog.fns if g['name'] == n and g['impl'] and g['params'] and g['params'][0][0] == 'self']
        own = s[1] if s[0] == 'struct' else None
        c = [g for g in owners if g['impl'][1][1] == own]
        if not c and (own in self.f['gs'] or own in self.prog.params or s[0] in ('con', 'assoc') or (own or '') == 'Self'): c = owners or [None]
        if not c:
            d = [g for g in owners if g['impl'][2] or g['impl'][1][1] in self.prog.params]   # default method, blanket impl
            c = d
        if c and c[0]:
            g = c[0]; pts, rt = self.sig(g, own); pts = pts[1:]
        elif n == 'hash': pts, rt = [INT('U8')], INT('U32')          # trait BuzHashHash
        elif n == 'push': pts, rt = [('list', INT('U8'))], OPT(INT('Usize'))   # trait ChunkIncr
        else: raise Unknown('%s:%d: method %s of %r' % (self.f['file'], line, n, s))
        if own in self.prog.params and n == 'hash': pts, rt = [INT('U8')], INT('U32')
        if own in self.prog.params and n == 'push': pts, rt = [('list', INT('U8'))], OPT(INT('Usize'))
        ks = [self.go(a, env, pt)[1] for a, pt in zip(args, pts)]
        return rt, lambda: 'Method %s [%s]' % (q(n), '; '.join(x() for x in [k] + ks))
    def e_macro(self, e, env, exp):
        _, n, args = e
        if n == 'assert':
            _, k = self.go(args[0], env, BOOL); return UNIT, lambda: 'Prim Passert [%s]' % k()
        if n == 'assert_ne':
            _, k = self.go(('bin', '!=', args[0], args[1], 0), env, BOOL); return UNIT, lambda: 'Prim Passert [%s]' % k()
        if n == 'assert_eq':
            _, k = self.go(('bin', '==', args[0], args[1], 0), env, BOOL); return UNIT, lambda: 'Prim Passert [%s]' % k()
        if n in ('println', 'panic'):
            ks = [self.go(a, env)[1] for a in args[1:]]; line = lambda: 'Con %s [%s]' % (args[0][1], '; '.join(x() for x in ks))
            if n == 'panic': return ('never',), lambda: 'Block [%s;\nPrim Passert [BoolLit false]]' % line()
            if 'stdout' in env: return UNIT, lambda: 'MutPrim Mpush_back (Var "stdout") [%s]' % line()
            return UNIT, line
        raise Unknown('macro ' + n)
    def e_assign(self, e, env, exp):
        tp, kp = self.go(e[1], env); tv, kv = self.go(e[2], env); self.unify(self.strip(tp), tv)
        return UNIT, lambda: 'Assign (%s) (%s)' % (kp(), kv())
    def e_opassign(self, e, env, exp):
        tp, kp = self.go(e[2], env); tv, kv = self.go(e[3], env); self.unify(self.strip(tp), tv)
        return UNIT, lambda: 'OpAssign %s (%s) (%s)' % (self.OPS[e[1]], kp(), kv())
    def e_return(self, e, env, exp):
        _, k = self.go(e[1], env, self.f['ret']); return ('never',), lambda: 'Return (%s)' % k()
    def e_break(self, e, env, exp): return ('never',), lambda: 'Break'
    def e_let(self, e, env, exp):
        _, p, ty, x = e
        t, k = self.go(x, env, ty)
        if isinstance(p, str): env[p] = ty or t; return UNIT, lambda: 'Let %s (%s)' % (q(p), k())
        a, b = p[1]; s = self.strip(t); env[a], env[b] = s[2]
        return UNIT, lambda: 'LetPair %s %s (%s)' % (q(a), q(b), k())
    def e_block(self, e, env, exp):
        env = dict(env); ks = []; t = UNIT
        for i, x in enumerate(e[1]):
            t, k = self.go(x, env, exp if i == len(e[1]) - 1 and x[0] not in ('return',) else None); ks.append(k)
        return t, lambda: 'Block [%s]' % ';\n'.join(k() for k in ks)
    def e_if(self, e, env, exp):
        _, kc = self.go(e[1], env, BOOL); t, kt = self.go(e[2], env, exp)
        if e[3]:
            t2, ke = self.go(e[3], env, exp); self.unify(t, t2)
            if self.res(t)[0] == 'never': t = t2
        else: ke = lambda: 'Con "()" []'; t = UNIT
        return t, lambda: 'If (%s) (%s) (%s)' % (kc(), kt(), ke())
    def e_match(self, e, env, exp):
        t, k = self.go(e[1], env); s = self.strip(t); rt = exp or self.fresh(); arms = []
        for p, x in e[2]:
            en = dict(env)
            if isinstance(p, tuple):
                for v in p[2]: en[v] = s[2][0]
                ps = 'PCon %s [%s]' % (q(p[1]), '; '.join(q(v) for v in p[2]))
            else: ps = 'PWild'
            tx, kx = self.go(x, en); self.unify(rt, tx) if self.res(tx)[0] != 'never' else None
            arms.append((ps, kx))
        return rt, lambda: 'Match (%s) [%s]' % (k(), ';\n'.join('(%s, %s)' % (a, b()) for a, b in arms))
    def e_for(self, e, env, exp):
        _, p, it, body = e; env = dict(env)
        if it[0] == 'range':
            _, ka = self.go(it[1], env, INT('Usize')); _, kb = self.go(it[2], env, INT('Usize')); env[p] = INT('Usize')
            _, kx = self.go(body, env)
            return UNIT, lambda: 'ForRange %s (%s) (%s) (%s)' % (q(p), ka(), kb(), kx())
        chain = []
        while it[0] == 'method' and it[2] in ('iter', 'enumerate', 'cloned'): chain.append(it[2]); it = it[1]
        t, k = self.go(it, env); el = self.strip(t)[1]
        if 'enumerate' in chain:
            i, v = p[1]; env[i] = INT('Usize'); env[v] = el
            _, kx = self.go(body, env)
            return UNIT, lambda: 'ForEnum %s %s (%s) (%s)' % (q(i), q(v), k(), kx())
        env[p] = el; _, kx = self.go(body, env)
        return UNIT, lambda: 'ForIn %s (%s) (%s)' % (q(p), k(), kx())
    def e_loop(self, e, env, exp):
        _, k = self.go(e[1], env); return UNIT, lambda: 'Loop (%s)' % k()

    def run(self):
        f = self.f; env = {}; params = []; pre = []
        for p, t, m in f['params']:
            t = self.res(t)
            if isinstance(p, tuple):            # a pattern parameter: (a, b): (A, B)
                params.append(('arg', m)); a, b = p[1]; env[a], env[b] = t[2]; pre.append('LetPair %s %s (Var "arg")' % (q(a), q(b)))
            else: env[p] = t; params.append((p, m))
        rt = self.res(f['ret'])
        _, k = self.go(f['body'], env, f['ret'])
        b = k()
        if pre: b = 'Block [%s;\n%s]' % (';\n'.join(pre), b)
        return params, b

def fname(T_, f):
    if not f['impl']: return f['name']
    tr, ty, trait = f['impl']
    if tr and tr[1] == 'From':
        return None
    return ty[1] + '::' + f['name'] if ty[0] == 'struct' else f['name']

def indent(s):
    """break and indent at block boundaries"""
    out, d, i = [], 0, 0
    lines = s.split('\n'); res = []
    for l in lines:
        res.append('  ' * (d + 1) + l)
        d += l.count('(') + l.count('[') - l.count(')') - l.count(']')
    return '\n'.join('    ' + r for r in res)

def main():
    prog = Prog()
    for n in FILES:
        p = P(n)
        # keep the argument type of `impl From<A> for B`
        orig = p.type
        p.items(prog)
    return prog

# `impl From<A> for B`: the parser drops generic arguments of paths, so keep those of From
_type = P.type
def type_keep_from(self):
    if self.at('From') and self.peek(1) == '<':
        self.i += 2; a = self.type(); self.split_op('>'); self.expect('>'); return ('from', 'From', a)
    return _type(self)
P.type = type_keep_from

def emit(prog):
    w = sys.stdout.write
    w('(** * RustText: the functions of src/*.rs as terms of [Rust.expr].\n\n'
      '    Generated by tools/transcribe.py from the sources; do not edit. *)\n\n'
      'From Coq Require Import String.\nFrom Verif Require Import Base Rust.\nOpen Scope list_scope.\nOpen Scope Z_scope.\nOpen Scope string_scope.\n\n')
    table, skipped = [], []
    def put(n, params, body, cite):
        table.append('  (* %s *)\n  (%s, {|\n    fn_params := [%s];\n    fn_body :=\n%s |})' % (
            cite, q(n), '; '.join('(%s, %s)' % (q(p), str(m).lower()) for p, m in params), indent(body)))
    for n, (t, e, file, line) in prog.consts.items():
        if e is None: continue
        f = dict(name=n, impl=None, assoc={}, gs=[], params=[], ret=t, body=('block', [e], line), file=file, line=line, end=line)
        params, b = T(prog, f).run()
        put(n, params, b, 'src/%s.rs:%d [const %s]' % (file, line, n))
    for n, file, line in prog.derived_default:
        f = dict(name='default', impl=(None, ('struct', n), False), assoc={}, gs=[], params=[], ret=('struct', n), file=file, line=line, end=line)
        def dflt(t):
            if t[0] == 'int': return ('lit', 0, None, line)
            if t[0] == 'wrap': return ('call', ['Wrapping'], None, [dflt(t[1])], line)
            if t[0] == 'bool': return ('bool', False)
            return ('call', ['Default', 'default'], None, [], line)
        f['body'] = ('block', [('struct', [n], [(x, dflt(t)) for x, t in prog.structs[n]])], line)
        prog.fns.append(f)
        params, b = T(prog, f).run()
        put(n + '::default', params, b, 'src/%s.rs:%d [#[derive(Default)] for %s]' % (file, line, n))
    for f in prog.fns:
        if f['impl'] and f['impl'][0] is None and f['name'] == 'default' and f['line'] == f['end'] and any(d[0] == f['impl'][1][1] for d in prog.derived_default): continue
        t = T(prog, f)
        tr, ty = (f['impl'][0], f['impl'][1]) if f['impl'] else (None, None)
        if tr and tr[0] == 'from': n = '%s::from<%s>' % (ty[1], t.refname(tr[2]))
        else: n = fname(t, f)
        try: params, b = t.run()
        except Unknown as x:
            skipped.append((n, f['file'], f['line'], f['end'], str(x))); continue
        put(n, params, b, 'src/%s.rs:%d-%d [%s]' % (f['file'], f['line'], f['end'], n))
    w('Definition text : list (string * fn) := [\n%s].\n' % ';\n\n'.join(table))
    def rows(l): return ';\n'.join('     ' + '; '.join('%d' % x for x in l[i:i + 8]) for i in range(0, len(l), 8)).lstrip()
    w('\nDefinition tables : list (string * (ity * list Z)) := [\n%s].\n' % ';\n\n'.join(
        '  (* src/%s.rs:%d *)\n  (%s, (%s,\n    [%s]))' % (file, line, q(n), {'u32': 'U32', 'u64': 'U64'}.get(t[1], t[1]), rows(l)) for n, t, l, file, line in prog.tables))
    for s in skipped: sys.stderr.write('skipped %s %s.rs:%d-%d %s\n' % s)

# ---------------------------------------------------------------- callers in tests/ and in the documentation
DRIVERS = [('tests/cuts.rs', ['cut_test_incr', 'cut_test_sz', 'cut_test']),
           ('tests/cuts_qc.rs', ['splits_fce']),
           ('tests/fastcdc.rs', ['oracle_1', 'oracle_1_test', 'feed_until_5_chunks', 'fast_cdc_8kb'])]

def drivers(prog, root):
    own = []
    def parser(path, src):
        p = P.__new__(P); p.name = path[:-3]; p.file = path; p.toks = lex(src, path); p.i = 0; return p
    for path, names in DRIVERS:
        p = parser(path, open(os.path.join(root, path)).read())
        for k in range(len(p.toks) - 1):
            kw, n = p.toks[k][1], p.toks[k + 1][1]
            if kw == 'struct':
                p.i = k + 2; fs = []; p.expect('{')
                while not p.eat('}'): f = p.next(); p.expect(':'); fs.append((f, p.type())); p.eat(',')
                prog.structs[n] = fs
            if kw == 'fn' and n in names:
                p.i = k + 1; p.fn(prog, None, None, [], p.toks[k][3], False, []); f = prog.fns[-1]; f['i32'] = True; own.append(f)
    # the example in the documentation of Chunk::find_chunk_edge; the chunker and the data it fixes are parameters here,
    # and what it prints is collected in `stdout`
    lines = open(os.path.join(root, 'src/lib.rs')).read().split('\n')
    at = next(i for i, l in enumerate(lines) if l.strip() == '/// use hash_roll::Chunk;')
    end = next(i for i in range(at, len(lines)) if lines[i].strip() == '/// ```')
    src = '\n' * at + '\n'.join(l.strip()[3:] for l in lines[at:end])
    p = parser('src/lib.rs', '{' + src + '}'); es = []
    k = next(i for i, t in enumerate(p.toks) if t[1] == 'let')      # after `use` and `fn some_chunk`
    p.toks = [('op', '{', None, p.toks[k][3])] + p.toks[k:]; b = p.block()
    fixed = [e for e in b[1] if e[0] == 'let' and e[1] in ('chunk', 'orig_data')]; assert len(fixed) == 2
    f = dict(name='doc_example', impl=None, assoc=None, gs=['C'], ret=UNIT, file='src/lib', line=at + 1, end=end,
             params=[('chunk', ('ref', ('struct', 'C')), False), ('orig_data', ('ref', ('list', INT('U8'))), False), ('stdout', ('list', ('struct', 'C')), True)],
             body=('block', [e for e in b[1] if e not in fixed], b[2]))
    own.append(f)
    out = []
    for f in own:
        params, body = T(prog, f).run()
        out.append('  (* %s.rs:%d-%d [%s] *)\n  (%s, {|\n    fn_params := [%s];\n    fn_body :=\n%s |})' % (
            f['file'], f['line'], f['end'], f['name'], q(f['name']), '; '.join('(%s, %s)' % (q(p), str(m).lower()) for p, m in params), indent(body)))
    sys.stdout.write('(** * DriverText: callers of the crate in tests/*.rs and in the documentation, as terms of [Rust.expr].\n\n'
      '    Generated by tools/transcribe.py; do not edit.  [println!] evaluates what it prints; a counter without a type is a [u32]. *)\n\n'
      'From Coq Require Import String.\nFrom Verif Require Import Base Rust.\nOpen Scope list_scope.\nOpen Scope Z_scope.\nOpen Scope string_scope.\n\n'
      'Definition driver_text : list (string * fn) := [\n%s].\n' % ';\n\n'.join(out))

if len(sys.argv) > 2: drivers(main(), sys.argv[2])
else: emit(main())
