"""Translate the recipe texts of endf-parserpy into the abstract syntax of ModelRecipe.v.

Usage: python3 recipes.py /repo/endf_parserpy/endf_recipes > ../rocq/theories/ModelRecipes.v

The grammar is the one of endf_recipes/endf_lark_ebnf.py. The script only reads texts;
it does not import the package.
"""
import ast, os, re, sys

TOK = re.compile(
    r'(?P<num>\d+\.\d*(?:[eE][+-]?\d+)?|\d+[eE][+-]?\d+|\.\d+|\d+)'
    r'|(?P<name>[A-Za-z][A-Za-z0-9_]*)|(?P<str>"[^"]*")|(?P<op>:=|==|!=|>=|<=|[][(){},/*%+\-?=<>:])'
    r'|(?P<nl>\n)|(?P<ws>[ \t\r]+)')


class P:
    def __init__(self, text):
        text = re.sub(r'#[^\n]*', '', text)
        self.t = []
        pos = 0
        while pos < len(text):
            m = TOK.match(text, pos)
            if not m:
                raise SyntaxError(repr(text[pos:pos + 30]))
            pos = m.end()
            if m.lastgroup in ('ws', 'nl'):
                continue
            self.t.append((m.lastgroup, m.group()))
        self.t.append(('end', ''))
        self.i = 0

    def pk(self, k=0):
        return self.t[min(self.i + k, len(self.t) - 1)][1]

    def ty(self, k=0):
        return self.t[min(self.i + k, len(self.t) - 1)][0]

    def nx(self):
        x = self.t[self.i][1]
        self.i += 1
        return x

    def eat(self, x):
        if self.pk() != x:
            raise SyntaxError('expected %r, found %r at %r' % (x, self.pk(), [a for _, a in self.t[self.i - 12:self.i + 6]]))
        self.i += 1

    # expressions
    def expr(self):
        a = self.addpart()
        while self.pk() in ('+', '-'):
            op = self.nx()
            b = self.addpart()
            a = ('EAdd' if op == '+' else 'ESub', a, b)
        return a

    def addpart(self):
        a = self.mulpart()
        while self.pk() in ('*', '%') or (self.pk() == '/' and self.div_ok):
            op = self.nx()
            b = self.mulpart()
            a = ({'*': 'EMul', '/': 'EDiv', '%': 'EMod'}[op], a, b)
        return a

    div_ok = False      # in fields a slash ends the fields unless inside brackets

    def mulpart(self):
        if self.pk() == '-':
            self.nx()
            return ('ENeg', self.mulpart())
        if self.pk() == '(':
            self.nx()
            old, self.div_ok = self.div_ok, True
            e = self.expr()
            self.div_ok = old
            self.eat(')')
            return e
        if self.ty() == 'num':
            v = self.nx()
            d = False
            if self.pk() == '?':
                self.nx()
                d = True
            return ('ENum', d, v)
        x = self.extvar()
        if self.pk() == '?':
            self.nx()
            return ('EIncons', x)
        return ('EVar', x)

    def extvar(self):
        assert self.ty() == 'name', (self.pk(), [a for _, a in self.t[self.i - 8:self.i + 6]])
        n = self.nx()
        ix = []
        if self.pk() == '[' and self.same_line() and self.pk(1) != 'lookahead':
            self.nx()
            while True:
                ix.append((self.ty(), self.nx()))
                if self.pk() == ',':
                    self.nx()
                else:
                    break
            self.eat(']')
        return (n, ix)

    def dexpr(self):
        old, self.div_ok = self.div_ok, True
        e = self.expr()
        self.div_ok = old
        return e

    # conditions
    def disj(self):
        a = self.conj()
        while self.pk() == 'or':
            self.nx()
            a = ('COr', a, self.conj())
        return a

    def conj(self):
        a = self.comp()
        while self.pk() == 'and':
            self.nx()
            a = ('CAnd', a, self.comp())
        return a

    def comp(self):
        if self.pk() == '(':
            # bracketed disjunction or a relation starting with a bracketed expression
            save = self.i
            try:
                self.nx()
                c = self.disj()
                self.eat(')')
                if self.pk() not in ('>', '<', '!=', '==', '>=', '<=', '+', '-', '*', '/', '%'):
                    return c
            except (SyntaxError, AssertionError):
                pass
            self.i = save
        a = self.dexpr()
        r = self.nx()
        names = {'>': 'RGt', '<': 'RLt', '!=': 'RNe', '==': 'REq', '>=': 'RGe', '<=': 'RLe'}
        if r not in names:
            raise SyntaxError(r)
        return ('CRel', names[r], a, self.dexpr())

    # records
    def ctrl(self):
        out = []
        for w in ('MAT', 'MF', 'MT'):
            x = self.nx()
            if x == w:
                out.append(None)
            else:
                out.append(int(x))
            if w != 'MT':
                self.eat(',')
        self.eat('/')
        return out

    def fields(self, n=6):
        out = []
        for k in range(n):
            if k:
                self.eat(',')
            out.append(self.expr() if k == n - 1 else self.dexpr())
        return out

    def name_opt(self):
        if self.pk() == '(' and self.ty(1) == 'name':
            # a table name must be on the same line; sections start with a bracket too, so
            # decide by what follows: only used directly behind TAB1, TAB2, LIST
            if self.same_line():
                self.nx()
                x = self.extvar()
                self.eat(')')
                return x
        return None

    def same_line(self):
        return not self.nlbefore[self.i]

    def lbody(self):
        out = []
        while self.pk() not in (']', '}'):
            if self.pk() == ',':
                self.nx()
            elif self.pk() == 'PADLINE':
                self.nx()
                out.append(('LPad',))
            elif self.pk() == '{':
                self.nx()
                b = self.lbody()
                self.eat('}')
                self.eat('{')
                v = self.nx()
                self.eat('=')
                a = self.dexpr()
                self.eat('to')
                z = self.dexpr()
                self.eat('}')
                out.append(('LLoop', v, a, z, b))
            else:
                out.append(('LExpr', self.dexpr()))
        return out

    def record(self):
        # find the record type: the word behind the matching bracket
        depth = 0
        j = self.i
        while True:
            x = self.t[j][1]
            if x == '[':
                depth += 1
            if x == ']':
                depth -= 1
                if depth == 0:
                    break
            j += 1
        kind = self.t[j + 1][1]
        self.eat('[')
        cs = self.ctrl()
        if kind in ('CONT', 'HEAD'):
            f = self.fields()
            self.eat(']')
            self.nx()
            return ('ICont', kind == 'HEAD', cs, f)
        if kind == 'DIR':
            self.eat('blank'); self.eat(','); self.eat('blank'); self.eat(',')
            f = self.fields(4)
            self.eat(']')
            self.nx()
            return ('IDir', cs, f)
        if kind == 'INTG':
            f = self.fields(3)
            self.eat('{')
            n = self.dexpr()
            self.eat('}')
            self.eat(']')
            self.nx()
            return ('IIntg', cs, f, n)
        if kind == 'TEXT':
            fs = []
            while True:
                v = self.extvar() if self.ty() == 'name' else None
                n = None
                if self.pk() == '{':
                    self.nx()
                    n = int(self.nx())
                    self.eat('}')
                fs.append((v, n))
                if self.pk() == ',':
                    self.nx()
                else:
                    break
            self.eat(']')
            self.nx()
            return ('IText', cs, fs)
        f = self.fields()
        self.eat('/')
        if kind == 'TAB1':
            x = self.extvar()
            self.eat('/')
            y = self.extvar()
            self.eat(']')
            self.nx()
            return ('ITab1', cs, f, x, y, self.name_opt())
        if kind == 'TAB2':
            x = self.extvar()
            self.eat(']')
            self.nx()
            return ('ITab2', cs, f, self.name_opt())
        if kind == 'LIST':
            b = self.lbody()
            self.eat(']')
            self.nx()
            return ('IList', cs, f, b, self.name_opt())
        raise SyntaxError(kind)

    def block(self, stops):
        out = []
        while True:
            x = self.pk()
            if self.ty() == 'end' or x in stops or (x == '(' and self.pk(1) == '/'):
                return out
            if x == '[':
                out.append(self.record())
            elif x == 'SEND':
                self.nx()
                out.append(('ISend',))
            elif x == 'stop':
                self.nx()
                self.eat('(')
                if self.ty() == 'str':
                    self.nx()
                self.eat(')')
                out.append(('IStop',))
            elif x == '(':
                self.nx()
                h = self.extvar()
                self.eat(')')
                b = self.block(())
                self.eat('(')
                self.eat('/')
                t = self.extvar()
                self.eat(')')
                out.append(('ISection', h, t, b))
            elif x == 'for':
                self.nx()
                v = self.nx()
                self.eat('=')
                a = self.dexpr()
                self.eat('to')
                z = self.dexpr()
                self.eat(':')
                b = self.block(('endfor',))
                self.eat('endfor')
                out.append(('IFor', v, a, z, b))
            elif x == 'if':
                brs = []
                els = []
                while self.pk() in ('if', 'elif'):
                    self.nx()
                    c = self.disj()
                    la = None
                    if self.pk() == '[':
                        self.nx()
                        self.eat('lookahead')
                        self.eat('=')
                        la = self.dexpr()
                        self.eat(']')
                    self.eat(':')
                    brs.append((c, la, self.block(('elif', 'else', 'endif'))))
                if self.pk() == 'else':
                    self.nx()
                    self.eat(':')
                    els = self.block(('endif',))
                self.eat('endif')
                out.append(('IIf', brs, els))
            elif self.ty() == 'name' and self.pk(1) == ':=':
                n = self.nx()
                self.nx()
                out.append(('IAbbrev', n, self.dexpr()))
            else:
                raise SyntaxError('%r' % [a for _, a in self.t[self.i - 8:self.i + 6]])


def parse(text):
    clean = re.sub(r'#[^\n]*', '', text)
    p = P(text)
    # tokens preceded by a newline
    flags = []
    pos = 0
    nl = True
    while pos < len(clean):
        m = TOK.match(clean, pos)
        pos = m.end()
        if m.lastgroup == 'nl':
            nl = True
        elif m.lastgroup != 'ws':
            flags.append(nl)
            nl = False
    flags.append(True)
    p.nlbefore = flags
    b = p.block(())
    assert p.ty() == 'end', p.pk()
    return b


# printing
def s(x):
    return '$"%s"' % x


def fnum(v):
    if v.isdigit():
        return '(NInt %s)' % v
    f = float(v)
    if f == 0:
        return '(NFlt (S754_zero false))'
    import math
    m, e = math.frexp(f)
    m = int(m * 2 ** 53)
    e -= 53
    return '(NFlt (S754_finite false %d (%d)))' % (m, e)


def ixs(ix):
    return '[' + '; '.join('INum %s' % fnum(v) if t == 'num' else 'IVar %s' % s(v) for t, v in ix) + ']'


def ev(v):
    return '(%s, %s)' % (s(v[0]), ixs(v[1]))


def ex(e):
    k = e[0]
    if k == 'EVar' and not e[1][1]:
        return 'rv %s' % s(e[1][0])
    if k == 'ENum' and not e[1] and e[2].isdigit():
        return 'rn %s' % e[2]
    if k == 'ENum' and not e[1] and float(e[2]) == 0:
        return 'r0'
    if k in ('EVar', 'EIncons'):
        return '%s %s %s' % (k, s(e[1][0]), ixs(e[1][1]))
    if k == 'ENum':
        return 'ENum %s %s' % ('true' if e[1] else 'false', fnum(e[2]))
    return '%s %s' % (k, ' '.join('(%s)' % ex(a) for a in e[1:]))


def px(e):
    x = ex(e)
    return x if x == 'r0' else '(%s)' % x


def cd(c):
    if c[0] == 'CRel':
        return 'CRel %s %s %s' % (c[1], px(c[2]), px(c[3]))
    return '%s (%s) (%s)' % (c[0], cd(c[1]), cd(c[2]))


def cs(c):
    return '(cspec %s)' % ' '.join('None' if x is None else '(Some %d)' % x for x in c)


def f6(f):
    return '(fields %s)' % ' '.join(px(e) for e in f)


def opt(v):
    return 'None' if v is None else '(Some %s)' % ev(v)


def lb(b, ind):
    if not b:
        return 'LNil'
    return '(items [' + '; '.join(li(i, ind) for i in b) + '])'


def li(i, ind):
    if i[0] == 'LPad':
        return 'LPad'
    if i[0] == 'LExpr':
        return 'LExpr %s' % px(i[1])
    return 'LLoop %s %s %s %s' % (s(i[1]), px(i[2]), px(i[3]), lb(i[4], ind + 2))


def blk(b, ind):
    if not b:
        return 'BNil'
    ind += 1
    pad = '\n' + ' ' * ind
    return '(instrs [' + pad + (';' + pad).join(ins(i, ind) for i in b) + '])'


def ins(i, ind):
    k = i[0]
    n = ind + 2
    if k == 'ICont':
        return 'ICont %s %s %s' % ('true' if i[1] else 'false', cs(i[2]), f6(i[3]))
    if k == 'IDir':
        return 'IDir %s %s' % (cs(i[1]), ' '.join(px(e) for e in i[2]))
    if k == 'IIntg':
        return 'IIntg %s %s %s' % (cs(i[1]), ' '.join(px(e) for e in i[2]), px(i[3]))
    if k == 'IText':
        return 'IText %s [%s]' % (cs(i[1]), '; '.join(
            '(%s, %s)' % (opt(v), 'None' if m is None else 'Some %d%%nat' % m) for v, m in i[2]))
    if k == 'ITab1':
        return 'ITab1 %s %s %s %s %s' % (cs(i[1]), f6(i[2]), ev(i[3]), ev(i[4]), opt(i[5]))
    if k == 'ITab2':
        return 'ITab2 %s %s %s' % (cs(i[1]), f6(i[2]), opt(i[3]))
    if k == 'IList':
        return 'IList %s %s %s %s' % (cs(i[1]), f6(i[2]), lb(i[3], n), opt(i[4]))
    if k in ('ISend', 'IStop'):
        return k
    if k == 'ISection':
        return 'ISection %s %s %s' % (ev(i[1]), ev(i[2]), blk(i[3], ind))
    if k == 'IFor':
        return 'IFor %s %s %s %s' % (s(i[1]), px(i[2]), px(i[3]), blk(i[4], ind))
    if k == 'IIf':
        def br(b):
            return '(Branch (%s) %s %s)' % (cd(b[0]), 'None' if b[1] is None else '(Some %s)' % px(b[1]), blk(b[2], ind))
        pad = '\n' + ' ' * ind
        return 'IIf %s%s(brs [%s])%s%s' % (br(i[1][0]), pad, (';' + pad).join(br(b) for b in i[1][1:]), pad, blk(i[2], ind))
    if k == 'IAbbrev':
        return 'IAbbrev %s %s' % (s(i[1]), px(i[2]))
    raise ValueError(k)


HEADER = '''(** The recipes of endf_recipes/endf6, endf_recipes/jendl, endf_recipes/pendf and
    endf_recipes/endf6_ext as abstract syntax.
    Generated from the recipe texts by tools/recipes.py; each definition cites its file.
    Comments in recipes (variable descriptions) leave no trace. The word in the place of
    the table fields of a TAB2 record (Z in "/ Z]TAB2") is never used and left out. *)
From Coq Require Import Ascii String ZArith Bool Lia List.
From Coq Require Import Floats.SpecFloat.
From Verif Require Import PyBase ModelFortran ModelRecipe.
Import ListNotations.
Open Scope Z_scope.

Definition cspec (a b c : option Z) : ctrlspec := {| cs_mat := a; cs_mf := b; cs_mt := c |}.
Definition fields (a b c d e f : expr) : fields6 :=
  {| f_c1 := a; f_c2 := b; f_l1 := c; f_l2 := d; f_n1 := e; f_n2 := f |}.
Definition rv (x : str) : expr := EVar x [].
Definition rn (z : Z) : expr := ENum false (NInt z).
Definition r0 : expr := ENum false (NFlt (S754_zero false)).
Definition instrs : list instr -> block := fold_right BCons BNil.
Definition brs : list branch -> branches := fold_right RCons RNil.
Definition items : list litem -> lbody := fold_right LCons LNil.
'''


def main(root):
    out = []
    names = []
    texts = {}
    for f in os.listdir(os.path.join(root, 'endf6')):
        for node in ast.parse(open(os.path.join(root, 'endf6', f)).read()).body:
            if isinstance(node, ast.Assign) and isinstance(node.value, ast.Constant):
                texts[node.targets[0].id] = node.value.value
    for sub in ('endf6', 'endf6_ext', 'jendl', 'pendf'):
        d = os.path.join(root, sub)
        for f in sorted(os.listdir(d)):
            if not f.startswith('endf_recipe_'):
                continue
            path = os.path.join(d, f)
            src = open(path).read()
            for node in ast.parse(src).body:
                if not isinstance(node, ast.Assign):
                    continue
                n = node.targets[0].id
                try:
                    v = ast.literal_eval(node.value)
                except ValueError:
                    # MF31: re.sub of ENDF_RECIPE_MF33
                    assert n == 'ENDF_RECIPE_MF31_MT452_455_456', n
                    v = re.sub(r' *\[ *MAT *, *33 *, *MT */', '[MAT, 31, MT /', texts['ENDF_RECIPE_MF33'])
                tree = parse(v)
                nm = n.lower().replace('endf_recipe_', '')
                if sub != 'endf6':
                    nm = sub + '_' + nm
                full = tree
                body = tree[:-1] if tree and tree[-1] == ('ISend',) else None
                if body is None:
                    sys.stderr.write('no final SEND: %s\n' % nm)
                out.append('\n(** endf_recipes/%s/%s %d-%d: %s%s *)' % (
                    sub, f, node.lineno, node.end_lineno, n, '' if body is None else ', without the SEND at the end'))
                out.append('Definition %s : block :=\n  %s.' % (nm, blk(full if body is None else body, 3)))
                names.append((sub, nm))
    out.append('\n(** all of them *)')
    out.append('Definition all_recipes : list (str * block) :=\n  [%s].' % ';\n   '.join(
        '(%s, %s)' % (s(nm), nm) for _, nm in names))
    return out


if __name__ == '__main__':
    out = main(sys.argv[1])
    print(HEADER)
    print('\n'.join(out))
