#!/usr/bin/env python3
"""Transcribe the automaton descriptions of /repo into Coq syntax trees.

usage: gen_nfa.py /repo /verif/rocq/theories

Reads stag_nfa.in, bctables.in and morf_nfa.in following dfasyn/scan.l and
dfasyn/parse.y and writes NfaData.v: one [decl list] per file.  Nothing is
computed here; blocks are expanded by the Coq model.
"""
import re
import sys

KEYWORDS = {
    'STATE': 'STATE State state', 'ABBREV': 'ABBREV Abbrev abbrev',
    'TOKENS': 'TOKENS Tokens tokens', 'PREFIX': 'PREFIX Prefix prefix',
    'BLOCK': 'BLOCK Block block',
    'ENDBLOCK': 'ENDBLOCK EndBlock Endblock endblock',
    'TYPE': 'TYPE Type type', 'RESULT': 'RESULT Result result',
    'EARLYRESULT': 'EARLYRESULT EarlyResult Earlyresult earlyresult',
    'ATTR': 'ATTRIBUTE ATTR Attribute Attr attribute attr',
    'DEFATTR': 'DEFATTR DefAttr Defattr defattr',
    'DEFRESULT': 'DEFRESULT DefResult Defresult defresult',
    'SYMBOL': 'SYMBOL Symbol symbol',
    'SYMRESULT': 'SYMRESULT SymResult Symresult symresult',
    'EARLYSYMRESULT': 'EARLYSYMRESULT EarlySymResult EarlySymresult '
                      'Earlysymresult earlysymresult',
}
KW = {w: k for k, ws in KEYWORDS.items() for w in ws.split()}


def lex(text):
    """scan.l: (kind, text, line) triples"""
    toks = []
    lines = text.split('\n')
    skip = False
    kept = []
    for line in lines:
        if re.match(r'^%\{[ \t]*$', line):
            skip = True
            kept.append('')
        elif re.match(r'^%\}[ \t]*$', line):
            skip = False
            kept.append('')
        else:
            kept.append('' if skip else line)
    text = '\n'.join(kept)
    pat = re.compile(r'(?P<s>[A-Za-z0-9_.]+)|(?P<c>#[^\n]*)|(?P<arrow>->)|'
                     r'(?P<str>"[^"]*")|(?P<op>[=|&~!^*?:;()<>,])|(?P<ws>[ \t\n]+)')
    pos = 0
    line = 1
    while pos < len(text):
        m = pat.match(text, pos)
        if not m:
            raise SystemExit('cannot lex: ' + text[pos:pos + 20])
        if m.group('s'):
            toks.append((KW.get(m.group('s'), 'STRING'), m.group('s'), line))
        elif m.group('arrow'):
            toks.append(('->', '->', line))
        elif m.group('str'):
            toks.append(('STRING', m.group('str')[1:-1], line))
        elif m.group('op'):
            toks.append((m.group('op'), m.group('op'), line))
        line += m.group(0).count('\n')
        pos = m.end()
    toks.append(('EOF', '', line))
    return toks


def q(s):
    return '"%s"' % s


def lst(xs):
    return '[' + '; '.join(xs) + ']'


class Parser:
    """parse.y"""

    def __init__(self, toks):
        self.t = toks
        self.i = 0

    def peek(self, k=0):
        return self.t[self.i + k][0]

    def line(self):
        return self.t[self.i][2]

    def next(self):
        x = self.t[self.i]
        self.i += 1
        return x[1]

    def expect(self, kind):
        if self.peek() != kind:
            raise SystemExit('parse error near %r' % (self.t[self.i - 3:self.i + 3],))
        return self.next()

    # ?: < | < ^ < & < ~
    def expr(self):
        a = self.binary(0)
        if self.peek() == '?':
            self.next()
            b = self.expr()
            self.expect(':')
            c = self.expr()
            return '(E_COND %s %s %s)' % (a, b, c)
        return a

    OPS = [('|', 'E_OR'), ('^', 'E_XOR'), ('&', 'E_AND')]

    def binary(self, level):
        if level == 3:
            return self.unary()
        a = self.binary(level + 1)
        while self.peek() == self.OPS[level][0]:
            self.next()
            b = self.binary(level + 1)
            a = '(%s %s %s)' % (self.OPS[level][1], a, b)
        return a

    def unary(self):
        if self.peek() in '~!':
            self.next()
            return '(E_NOT %s)' % self.unary()
        if self.peek() == '(':
            self.next()
            e = self.expr()
            self.expect(')')
            return e
        if self.peek() == '*':
            self.next()
            return 'E_WILD'
        return '(E_SYMBOL %s)' % q(self.expect('STRING'))

    def file(self):
        out = []
        while self.peek() != 'EOF':
            k = self.peek()
            first = self.line()
            if k == 'TOKENS':
                self.next()
                xs = []
                while self.peek() == 'STRING':
                    xs.append(q(self.next()))
                d = 'DTokens ' + lst(xs)
            elif k == 'PREFIX':
                self.next()
                self.expect('STRING')
                continue
            elif k == 'ABBREV':
                self.next()
                name = self.expect('STRING')
                self.expect('=')
                xs = [q(self.expect('STRING'))]
                while self.peek() == '|':
                    self.next()
                    xs.append(q(self.expect('STRING')))
                d = 'DAbbrev %s %s' % (q(name), lst(xs))
            elif k == 'BLOCK':
                d = self.block()
            elif k == 'ATTR':
                self.next()
                r = self.result()
                if r is None:
                    continue
                d = 'DAttr (%s)' % r
            elif k == 'DEFATTR':
                self.next()
                d = 'DAttr (DDefault %s)' % q(self.expect('STRING'))
            else:
                r = self.result()
                if r is None:
                    continue
                d = 'DExit (%s)' % r
            last = self.t[self.i - 1][2]
            out.append((first, last, d))
        return out

    def result(self):
        k = self.t[self.i][0]
        self.next()
        if k in ('RESULT', 'EARLYRESULT'):
            early = 'false' if k == 'RESULT' else 'true'
            if self.peek() == 'STRING' and self.peek(1) not in ('|', '&', '^', '?', '->'):
                return 'DResult %s None %s' % (q(self.next()), early)
            e = self.expr()
            self.expect('->')
            return 'DResult %s (Some %s) %s' % (q(self.expect('STRING')), e, early)
        if k in ('SYMRESULT', 'EARLYSYMRESULT'):
            e = self.expr()
            self.expect('->')
            early = 'false' if k == 'SYMRESULT' else 'true'
            return 'DSymResult %s %s %s' % (q(self.expect('STRING')), e, early)
        if k == 'SYMBOL':
            n = self.expect('STRING')
            self.expect('=')
            return 'DSymbol %s %s' % (q(n), self.expr())
        if k == 'DEFRESULT':
            return 'DDefault %s' % q(self.expect('STRING'))
        if k == 'TYPE':
            self.expect('STRING')
            return None
        raise SystemExit('unexpected %s' % k)

    def block(self):
        self.next()
        name = self.expect('STRING')
        insts = []
        states = []
        while self.peek() == 'STRING':
            a = self.next()
            self.expect(':')
            insts.append('(%s, %s)' % (q(a), q(self.expect('STRING'))))
        while self.peek() == 'STATE':
            self.next()
            nm = self.expect('STRING')
            at = 'None'
            if self.peek() == '(':
                self.next()
                at = 'Some %s' % q(self.expect('STRING'))
                self.expect(')')
                at = '(%s)' % at
            tr = []
            while self.peek() in ('STRING', '->', '=', '|', ';', '<'):
                tr.append(self.trans())
            body = '\n      [' + ';\n       '.join(tr) + ']' if tr else '[]'
            states.append('StateDecl %s %s %s' % (q(nm), at, body))
        self.expect('ENDBLOCK')
        return 'DBlock %s\n    %s\n    [%s]' % (q(name), lst(insts), ';\n     '.join(states))

    def trans(self):
        steps = [self.step()]
        while self.peek() == ';':
            self.next()
            steps.append(self.step())
        if self.peek() == '->':
            self.next()
            d = [q(self.expect('STRING'))]
            while self.peek() == ',':
                self.next()
                d.append(q(self.expect('STRING')))
            return '(%s, Goto %s)' % (lst(steps), lst(d))
        self.expect('=')
        return '(%s, ExitTag %s)' % (lst(steps), q(self.expect('STRING')))

    def step(self):
        if self.peek() == '<':
            xs = [self.inline()]
            while self.peek() == '|':
                self.next()
                xs.append(self.inline() if self.peek() == '<' else 'None')
            return 'Inline ' + lst(xs)
        xs = [self.option()]
        while self.peek() == '|':
            self.next()
            xs.append(self.option())
        return 'Options ' + lst(xs)

    def option(self):
        return 'Some ' + q(self.next()) if self.peek() == 'STRING' else 'None'

    def inline(self):
        self.expect('<')
        a = self.expect('STRING')
        self.expect(':')
        b = self.expect('STRING')
        self.expect('->')
        c = self.expect('STRING')
        self.expect('>')
        return 'Some (%s, %s, %s)' % (q(a), q(b), q(c))


def main():
    repo, dest = sys.argv[1:3]
    with open(dest + '/NfaData.v', 'w') as f:
        f.write('(* Generated by tools/gen_nfa.py from the automaton descriptions in\n'
                '   /repo: a transcription, block expansion is done by the model. *)\n'
                'From Coq Require Import String List NArith.\n'
                'From Verif Require Import DfaModel.\n'
                'Import ListNotations.\nOpen Scope string_scope.\n')
        for fn, name in (('stag_nfa.in', 'stag_desc'), ('bctables.in', 'bad_cmene_desc'),
                         ('morf_nfa.in', 'morf_desc')):
            ds = Parser(lex(open('%s/%s' % (repo, fn)).read())).file()
            f.write('\n(* %s:%d-%d *)\nDefinition %s : list decl :=\n  [' %
                    (fn, ds[0][0], ds[-1][1], name))
            f.write(';\n   '.join('(* %s:%d *) %s' % (fn, a, d) for a, b, d in ds))
            f.write('].\n')


main()
