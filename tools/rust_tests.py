#!/usr/bin/env python3
"""Transcribes the repository's own unit tests into Coq computations on the model.

usage: rust_tests.py OUTDIR     (reads /repo, writes OUTDIR/RepoTests_*.v)

Each `#[test]` function becomes one `Example ... : <body> = true`, proved by vm_compute: the
statements of the test are translated one for one (let, blocks, assert_eq!, assert_tokens), every
library call `Type::f(a, b)` to `(Type_f a b)` and every method call `x.f(a)` to `(m_f x a)`.
The names `Type_f`, `m_f` are defined by hand in RepoPrelude_*.v as the model's functions.
References, dereferences, `.clone()`, type annotations and generic arguments are dropped."""
import re, sys, os

REPO = '/repo'

# tests whose expected value fixes the iteration order of a hash set (not ho_id)
ORDER = {('weave/src/matrix/forest/mod.rs', 'unique_forest_into')}

# ---------------------------------------------------------------- tokens
TOK = re.compile(r'''
 (?P<ws>\s+|//[^\n]*|/\*.*?\*/)
|(?P<str>"(?:\\.|[^"\\])*")
|(?P<num>\d+)
|(?P<life>'[a-z]+\b(?!'))
|(?P<id>[A-Za-z_][A-Za-z0-9_]*)
|(?P<op>::|=>|->|==|&&|\|\||\.\.|[{}()\[\],;:.=&*!|^<>\#?$+\-'%/@])
''', re.X | re.S)

def lex(src):
    out, i = [], 0
    while i < len(src):
        m = TOK.match(src, i)
        if not m: raise Exception('lex error at %r' % src[i:i+30])
        if m.lastgroup != 'ws': out.append((m.lastgroup, m.group(), m.start()))
        i = m.end()
    return out

def unescape(s):
    return s[1:-1].replace('\\n', '\n').replace('\\t', '\t').replace('\\"', '"').replace('\\\\', '\\')

class P:
    def __init__(self, toks): self.t, self.i, self.mut = toks, 0, set()
    def peek(self, k=0): return self.t[self.i+k][1] if self.i+k < len(self.t) else None
    def kind(self, k=0): return self.t[self.i+k][0] if self.i+k < len(self.t) else None
    def next(self): self.i += 1; return self.t[self.i-1][1]
    def eat(self, s):
        if self.peek() != s: raise Exception('expected %r got %r near %s' % (s, self.peek(), ' '.join(x[1] for x in self.t[max(0,self.i-15):self.i+5])))
        self.i += 1
    def accept(self, s):
        if self.peek() == s: self.i += 1; return True
        return False

    def skip_generics(self):          # at '<'
        d = 0
        while True:
            x = self.next()
            if x == '<': d += 1
            elif x == '>':
                d -= 1
                if d == 0: return
    def skip_type(self):              # up to '=' at depth 0
        d = 0
        while not (d == 0 and self.peek() in ('=', ';')):
            x = self.next()
            if x in '<[(': d += 1
            elif x in '>])': d -= 1

    # ---- block: list of statements, gives Coq code
    def block(self, test):            # after '{'
        """test: a block of statements worth a bool; otherwise a block with a value"""
        if self.accept('}'): return 'true' if test else 'tt'
        x = self.peek()
        if x == 'let':
            self.next()
            mut = self.accept('mut')
            if self.accept('('):
                vs = [self.next()]
                while self.accept(','): vs.append(self.next())
                self.eat(')'); pat = "'(" + ', '.join('v_' + v for v in vs) + ')'
            else:
                v = self.next(); pat = 'v_' + v
                if mut: self.mut.add(v)
            if self.accept(':'): self.skip_type()
            self.eat('=')
            recv = self.peek() if self.peek() in self.mut and self.peek(1) == '.' and self.peek(2) == 'add' else None
            e = self.expr(); self.eat(';')
            if recv: pat = "'(%s, v_%s)" % (pat, recv)
            return 'let %s := %s in\n  %s' % (pat, e, self.block(test))
        if x == '{' and test:
            self.next()
            a = self.block(True)
            return '(%s) &&\n  %s' % (a, self.block(True))
        if x in ('assert_eq', 'assert_tokens'):
            self.next(); self.accept('!'); self.eat('(')
            a = self.expr(); self.eat(','); b = self.expr(); self.accept(','); self.eat(')'); self.accept(';')
            return '%s %s %s &&\n  %s' % ('teq' if x == 'assert_eq' else 'assert_tokens', self.lit(a), self.lit(b), self.block(True))
        recv = x if x in self.mut else None
        e = self.expr()
        if self.accept(';'):
            assert recv, e
            return 'let v_%s := %s in\n  %s' % (recv, e, self.block(test))
        self.eat('}')
        return e
    wrap_literals = False
    def lit(self, a):
        if self.wrap_literals and (a in ('true', 'false') or re.fullmatch(r'\d+', a)): return '(Some %s)' % a
        return a

    # ---- expressions
    def expr(self): return self.bor()
    def bor(self):
        a = self.bxor()
        while self.accept('|'): a = '(op_or %s %s)' % (a, self.bxor())
        return a
    def bxor(self):
        a = self.band()
        while self.accept('^'): a = '(op_xor %s %s)' % (a, self.band())
        return a
    def band(self):
        a = self.unary()
        while self.accept('&'): a = '(op_and %s %s)' % (a, self.unary())
        return a
    def unary(self):
        if self.accept('&'): self.accept('mut'); return self.unary()
        if self.accept('*'): return self.unary()
        if self.accept('!'): return '(op_not %s)' % self.unary()
        return self.postfix()
    def args(self, close):
        out = []
        while not self.accept(close):
            out.append(self.expr())
            if not self.accept(','): self.eat(close); break
        return out
    def postfix(self):
        e = self.primary()
        while self.peek() == '.':
            self.next(); m = self.next()
            if self.peek() == '::': self.next(); self.skip_generics()
            if self.accept('('):
                a = self.args(')')
                if m in ('clone', 'iter', 'into_iter', 'to_vec', 'cloned', 'collect'): assert not a; continue
                if m == 'expect' or m == 'expect_err': a = []
                e = '(m_%s %s)' % (m, ' '.join([e] + a))
            else:
                e = '(fld_%s %s)' % (m, e)
        return e
    def coq_list(self, xs): return '[' + '; '.join(xs) + ']'
    def primary(self):
        k, x = self.kind(), self.peek()
        if k == 'str': self.next(); return '"%s"%%string' % unescape(x).replace('"', '""')
        if k == 'num': self.next(); return x
        if x == '(':
            self.next(); a = self.args(')')
            return '(' + ', '.join(a) + ')'
        if x == '[':
            self.next(); return self.coq_list(self.args(']'))
        if x == '{':
            self.next(); return '(' + self.block(False) + ')'
        if x in ('true', 'false'): self.next(); return x
        assert k == 'id', (k, x)
        path = [self.next()]
        while self.peek() == '::':
            self.next()
            if self.peek() == '<': self.skip_generics()
            else: path.append(self.next())
        if len(path) == 1 and self.peek() == '!':
            self.next()
            op = self.next(); close = {'(': ')', '[': ']', '{': '}'}[op]
            if path[0] == 'vec': return self.coq_list(self.args(close))
            if path[0] == 'btreeset': return '(btreeset %s)' % self.coq_list(self.args(close))
            if path[0] == 'hashmap':
                xs = []
                while not self.accept(close):
                    a = self.expr(); self.eat('=>'); b = self.expr(); xs.append('(%s, %s)' % (a, b))
                    if not self.accept(','): self.eat(close); break
                return '(hashmap %s)' % self.coq_list(xs)
            if path[0] == 'node':
                if self.peek() in ('Always', 'Never'):
                    r = 'Node_' + self.next(); self.eat(close); return r
                f = {'low': 'Node_Never', 'high': 'Node_Always'}
                while not self.accept(close):
                    n = self.next(); self.eat(':'); f[n] = self.expr()
                    if not self.accept(','): self.eat(close); break
                return '(Node_branch (Priority %s) %s %s)' % (f['id'], f['low'], f['high'])
            raise Exception('macro ' + path[0])
        name = '_'.join(path[-2:])
        upper = path[-1][0].isupper() or len(path) > 1
        if not upper and len(path) == 1 and self.peek() != '(': return 'v_' + path[0]
        if self.peek() == '(':
            self.next(); a = self.args(')')
            return '(%s %s)' % (name, ' '.join(a)) if a else name
        if self.peek() == '{' and path[-1][0].isupper():
            self.next(); a = []
            while not self.accept('}'):
                self.next(); self.eat(':'); a.append(self.expr())
                if not self.accept(','): self.eat('}'); break
            return '(%s %s)' % (name, ' '.join(a))
        return name

# ---------------------------------------------------------------- finding the tests
def functions(path, attr):
    """yields (module, name, line, tokens-from-body) of the functions of a file (attr: only #[test])"""
    src = open(os.path.join(REPO, path)).read()
    toks = lex(src)
    mod = []
    depth = 0; stack = []
    i = 0
    while i < len(toks):
        x = toks[i][1]
        if x == 'mod' and toks[i+2][1] == '{': stack.append((toks[i+1][1], depth))
        if x == '{': depth += 1
        if x == '}':
            depth -= 1
            if stack and stack[-1][1] == depth: stack.pop()
        if x == 'fn' and toks[i+1][0] == 'id':
            istest = ''.join(t[1] for t in toks[max(0, i-4):i]).endswith('#[test]') or \
                     ''.join(t[1] for t in toks[max(0, i-4):i]).endswith('#[test]pub')
            if istest == attr and (attr or toks[i-1][1] == 'pub'):
                j = i
                while toks[j][1] != '{': j += 1
                yield ('_'.join(s[0] for s in stack), toks[i+1][1], src.count('\n', 0, toks[i][2]) + 1, toks[j+1:])
        i += 1

def example(name, cite, body, out):
    out.append('(** %s *)\nExample %s : (\n  %s) = true.\nProof. vm_compute. reflexivity. Qed.\n' % (cite, name, body))

def short(path):
    return re.sub(r'[^a-z0-9]+', '_', path.replace('/src/', '/').replace('.rs', ''))

def run(outdir, fname, prelude, files, forest_cases=None, wrap=False, skip=()):
    out = ['(** GENERATED by tools/rust_tests.py: the repository\'s own tests, transcribed and run on the',
           '    model.  These are checks of the MODEL against the values the authors expect, not proofs of',
           '    properties (those are in Properties_*.v). *)']
    out.append('From Coq Require Import String List Bool.\nFrom Verif Require Import %s.\nImport ListNotations.\nOpen Scope list_scope.\nOpen Scope bool_scope.\n' % prelude)
    n = 0; skipped = []
    for f in files:
        for mod, name, line, toks in functions(f, True):
            if name in skip: skipped.append(name); continue
            p = P(toks); p.wrap_literals = wrap
            try: b = p.block(True)
            except Exception as e: raise Exception('%s: %s: %s' % (f, name, e))
            n += 1
            note = ''
            if (f, name) in ORDER:
                b = b.replace('Into_into', 'Into_into_rev'); note = '; the expected order is the reverse of the order of insertion'
            example('%s_%s_%s' % (short(f), mod, name), '%s, %s, L%d%s' % (f, name, line, note), b, out)
    if forest_cases:
        src = open(os.path.join(REPO, 'weave/tests/forest/mod.rs')).read()
        for kind in ['intersect', 'union', 'product', 'subset', 'subset_not', 'subset_all', 'subset_none', 'occurrences']:
            wanted = re.findall(r'\b%s!\(\$forest, (\w+)\);' % kind, src)
            f = 'weave/tests/forest/%s.rs' % kind
            found = {x[1]: x for x in functions(f, False)}
            for w in wanted:
                _, name, line, toks = found[w]
                b = P(toks).block(False)
                n += 1
                if kind in ('intersect', 'union', 'product'):
                    body = "let '(forest1, forest2, expected) := (%s) in\n  teq expected (Forest_%s forest1 forest2) &&\n  teq expected (Forest_%s forest2 forest1)" % (b, kind, kind)
                elif kind == 'occurrences':
                    body = "let '(forest, expected) := (%s) in teq expected (Forest_occurrences forest)" % b
                else:
                    body = "let '(forest, element, expected) := (%s) in teq expected (Forest_%s forest element)" % (b, kind)
                example('tests_forest_%s_%s' % (kind, name), '%s, %s, L%d, run as in weave/tests/forest/mod.rs for %s' % (f, name, line, forest_cases), body, out)
    open(os.path.join(outdir, fname), 'w').write('\n'.join(out))
    print(fname, n, 'tests', 'skipped', skipped)

if __name__ == '__main__':
    o = sys.argv[1]
    w = 'weave/src/'
    run(o, 'RepoTests_Zdd2.v', 'RepoPrelude_Zdd2',
        [w + 'zdd2/forest/' + x for x in ['mod.rs', 'union.rs', 'intersect.rs', 'product.rs', 'subset.rs', 'node/mod.rs', 'node/macros.rs', 'node/parser.rs', 'node/serialize.rs', 'node/arena.rs', 'universe/mod.rs', 'universe/serialize.rs']] + ['weave/tests/zdd.rs'],
        'weave::zdd2::Forest', wrap=True)
    run(o, 'RepoTests_Zdd2Tree.v', 'RepoPrelude_Zdd2Tree', [w + 'zdd2/tree/' + x for x in ['mod.rs', 'union.rs', 'intersect.rs', 'product.rs']])
    run(o, 'RepoTests_Matrix.v', 'RepoPrelude_Matrix', [w + 'matrix/forest/' + x for x in ['mod.rs', 'union.rs', 'intersect.rs', 'product.rs', 'subset.rs']], 'weave::matrix::Forest')
    run(o, 'RepoTests_MatrixTree.v', 'RepoPrelude_MatrixTree', [w + 'matrix/tree/' + x for x in ['mod.rs', 'union.rs', 'intersect.rs', 'product.rs']])
    run(o, 'RepoTests_Zdd.v', 'RepoPrelude_Zdd', [w + 'zdd/' + x for x in ['node/arena.rs', 'node/parser.rs', 'tree/mod.rs', 'tree/traversable.rs', 'tree/restrict.rs', 'tree/combinations.rs', 'tree/summarize.rs', 'tree/intersect.rs', 'tree/union.rs', 'tree/product.rs']] + ['weave/tests/node_zdd_serde.rs'])
    b = 'bowtie-core/src/bdd/'
    run(o, 'RepoTests_Bdd.v', 'RepoPrelude_Bdd', [b + x for x in ['node/reduce.rs', 'node/hash_structure.rs', 'node/restrict.rs', 'node/arena.rs', 'node/structure.rs', 'node/summarize.rs', 'node/bit_operations.rs', 'closet/select.rs', 'closet/node_count.rs', 'closet/categorize.rs', 'closet_builder/mod.rs']] +
        ['bowtie-core/tests/' + x for x in ['closet_builder_bdd.rs', 'complete_outfit_bdd.rs', 'node_bdd_serde.rs']])
