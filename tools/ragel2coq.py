#!/usr/bin/env python3
"""Transcribe the four parsers that ragel generated (internal/ddl/*_parser.go) into
Coq tables.  Every construct of the generated code is matched; anything that is not
recognised stops the script.  Usage: tools/ragel2coq.py (writes rocq/theories/MachineTables.v)."""
import re, sys

REPO = '/repo/internal/ddl/'
OUT = '/verif/rocq/theories/MachineTables.v'

# Go statements of the actions (a buffer action also resets the buffer).
ACTIONS = {
 'check': {'mark1 = p': 'SetMark1', 'mark2 = p': 'SetMark2',
           'check.Deferrable = true': 'CheckDeferrable',
           'check.InitiallyDeferred = true': 'CheckDeferred'},
 'foreign_key': {'fk.addColumn(buffer.String())': 'FkColumn', 'fk.addReferenced(buffer.String())': 'FkReferenced',
           'fk.setMatch(buffer.String())': 'FkMatch', 'fk.setOnDelete(buffer.String())': 'FkOnDelete',
           'fk.setOnUpdate(buffer.String())': 'FkOnUpdate', 'fk.setTable(buffer.String())': 'FkTable',
           'fk.Deferrable = true': 'FkDeferrable', 'fk.InitiallyDeferred = true': 'FkDeferred'},
 'index': {'index.addColumn(buffer.String())': 'IxColumn', 'index.addExpression(buffer.String())': 'IxExpression',
           'index.setName(buffer.String())': 'IxName', 'index.setOpClass(buffer.String())': 'IxOpClass',
           'index.setTable(buffer.String())': 'IxTable', 'index.setUsing(buffer.String())': 'IxUsing',
           'index.setWhere(buffer.String())': 'IxWhere', 'index.Unique = true': 'IxUnique'},
 'trigger': {'trigger.addColumn(buffer.String())': 'TgColumn', 'trigger.setFunction(buffer.String())': 'TgFunction',
           'trigger.setName(buffer.String())': 'TgName', 'trigger.setTable(buffer.String())': 'TgTable',
           'trigger.setWhen(buffer.String())': 'TgWhen', 'trigger.Constraint = true': 'TgConstraint',
           'trigger.Deferrable = true': 'TgDeferrable', 'trigger.InitiallyDeferred = true': 'TgDeferred',
           'trigger.ForEachRow = true': 'TgEachRow', 'trigger.Delete = true': 'TgDelete',
           'trigger.Insert = true': 'TgInsert', 'trigger.Truncate = true': 'TgTruncate',
           'trigger.Update = true': 'TgUpdate'},
}

def label(s):
    m = re.fullmatch(r'(st|tr)(\d+)', s)
    if not m: sys.exit('label ' + s)
    return ('ToState ' if m[1] == 'st' else 'ToTr ') + m[2]

class P:
    def __init__(self, name):
        self.name = name
        self.raw = open(REPO + name + '_parser.go').read().split('\n')
        self.L = [(i + 1, l.strip()) for i, l in enumerate(self.raw)
                  if l.strip() and not l.strip().startswith('//')]
        self.i = 0
    def line(self): return self.L[self.i][1]
    def no(self): return self.L[self.i][0]
    def die(self): sys.exit(f'{self.name}_parser.go:{self.no()}: {self.line()!r}')
    def eat(self, s):
        if self.line() != s: self.die()
        self.i += 1
    def match(self, pat):
        m = re.fullmatch(pat, self.line())
        if m: self.i += 1
        return m
    def need(self, pat):
        m = self.match(pat)
        if not m: self.die()
        return m
    def acts(self):
        """The statements of one or more actions, up to something else."""
        out = []
        while True:
            s = self.line()
            if s == 'buffer.WriteByte(data[p])': out.append('AddToBuffer'); self.i += 1
            elif s in ACTIONS[self.name]:
                out.append(ACTIONS[self.name][s]); self.i += 1
                if 'buffer.String()' in s: self.eat('buffer.Reset()')
            else: return out
    def goto(self): return label(self.need(r'goto (\w+)')[1])
    def statement(self):
        """One statement: ('goto', l), ('case', [(lo, hi, l)]), or ('switch', [(lo, hi, statement)], default)."""
        m = self.match(r'if data\[p\] == (\d+) \{')
        if m:
            g = self.goto(); self.eat('}')
            return ('case', [(int(m[1]), int(m[1]), g)])
        m = self.match(r'if (\d+) <= data\[p\] && data\[p\] <= (\d+) \{')
        if m:
            g = self.goto(); self.eat('}')
            return ('case', [(int(m[1]), int(m[2]), g)])
        if self.match(r'switch data\[p\] \{'):
            cases = []
            while not self.match(r'\}'):
                v = int(self.need(r'case (\d+):')[1]); cases.append((v, v, self.goto()))
            return ('case', cases)
        if self.match(r'switch \{'):
            cases = []; default = None
            while not self.match(r'\}'):
                if self.match(r'default:'): default = self.statement(); continue
                m = self.need(r'case data\[p\] (<|>|>=) (\d+):'); v = int(m[2])
                lo, hi = {'<': (0, v - 1), '>': (v + 1, 255), '>=': (v, 255)}[m[1]]
                cases.append((lo, hi, self.statement()))
            return ('switch', cases, default)
        return ('goto', self.goto())
    def tree(self, st, rest):
        """The decision tree of a statement followed by [rest]."""
        if st[0] == 'goto': return f'Goto ({st[1]})'
        if st[0] == 'case':
            for lo, hi, g in reversed(st[1]): rest = f'If {lo} {hi} (Goto ({g})) ({rest})'
            return rest
        out = rest if st[2] is None else self.tree(st[2], rest)
        for lo, hi, t in reversed(st[1]): out = f'If {lo} {hi} ({self.tree(t, rest)}) ({out})'
        return out
    def body(self):
        """The code of a state (up to its last goto)."""
        sts = [self.statement()]
        while sts[-1][0] != 'goto': sts.append(self.statement())
        out = None
        for st in reversed(sts): out = self.tree(st, out)
        return out
    def parse(self):
        n = self.name
        while not self.match(rf'const {n}_start int = 1'): self.i += 1
        first_final = int(self.need(rf'const {n}_first_final int = (\d+)')[1])
        self.need(rf'const {n}_error int = 0'); self.need(rf'const {n}_en_main int = 1')
        while not self.match(r'cs, eof := 0, len\(data\);'): self.i += 1
        self.eat('p, pe := 0, eof;'); self.eat('{'); self.eat(f'cs = {n}_start'); self.eat('}'); self.eat('{')
        self.eat('if p == pe {'); self.eat('goto _test_eof'); self.eat('}')
        self.eat('switch cs {'); declared = set()
        while not self.match(r'\}'):
            v = self.need(r'case (\d+):')[1]; self.eat(f'goto st_case_{v}'); declared.add(int(v))
        self.eat('goto st_out')
        states, trs, seen = {}, {}, set()
        while not self.match(r'st_out:'):
            m = self.match(r'tr(\d+):')
            if m:
                line = self.no() - 1
                a = self.acts(); t = int(self.need(r'goto st(\d+)')[1]); trs[int(m[1])] = (a, t, line); continue
            if self.match(r'st_case_0:'):
                self.eat('st0:'); self.eat('cs = 0'); self.eat('goto _out'); seen.add(0); continue
            line = self.no()
            v = self.need(r'st(\d+):')[1]
            self.eat('if p++; p == pe {'); self.eat(f'goto _test_eof{v}'); self.eat('}'); self.eat(f'st_case_{v}:')
            states[int(v)] = (self.body(), line); seen.add(int(v))
        eofs = set()
        while True:
            m = self.match(r'_test_eof(\d+): cs = (\d+); goto _test_eof')
            if not m: break
            if m[1] != m[2]: self.die()
            eofs.add(int(m[1]))
        self.eat('_test_eof: {}')
        finals = []
        if self.match(r'if p == eof \{'):
            self.eat('switch cs {')
            while not self.match(r'\}'):
                ks = [int(self.need(r'case (\d+):')[1])]
                line = self.no() - 1
                a = self.acts(); finals.append((ks[0], a, line))
            self.eat('}')
        self.eat('_out: {}'); self.eat('}')
        self.eat(f'if cs < {n}_first_final {{')
        assert declared == seen and eofs == seen - {0}, n
        return first_final, states, trs, finals

def main():
    out = ['(** GENERATED by tools/ragel2coq.py from internal/ddl/*_parser.go; do not edit.',
           '    Each definition is one generated Go function: per state its decision tree on',
           '    data[p], per tr label its actions and target, and the actions at the end. *)',
           'From stdpp Require Import list numbers.',
           'From Verif Require Import MachineModel.', 'Local Open Scope Z_scope.', '']
    for n in ['check', 'foreign_key', 'index', 'trigger']:
        ff, states, trs, finals = P(n).parse()
        lo = min(v[1] for v in states.values()); hi = max(v[1] for v in states.values())
        f = f'{n}_parser.go'
        out.append(f'(** internal/ddl/{f}:{lo}-{hi}: the states. *)')
        out.append(f'Definition {n}_states : list (N * tree) :=\n  [' +
            ';\n   '.join(f'({k}%N, {v[0]}) (* {f}:{v[1]} *)' for k, v in sorted(states.items())) + '].')
        out.append(f'(** internal/ddl/{f}: the tr labels. *)')
        out.append(f'Definition {n}_trs : list (N * (list action * N)) :=\n  [' +
            ';\n   '.join(f'({k}%N, ([{"; ".join(v[0])}], {v[1]}%N)) (* {f}:{v[2]} *)' for k, v in sorted(trs.items())) + '].')
        out.append(f'(** internal/ddl/{f}: the actions at the end of the input. *)')
        out.append(f'Definition {n}_eof : list (N * list action) :=\n  [' +
            ';\n   '.join(f'({k}%N, [{"; ".join(a)}]) (* {f}:{l} *)' for k, a, l in finals) + '].')
        out.append(f'(** internal/ddl/{f}:10-12: start 1, error 0, first final {ff}. *)')
        out.append(f'Definition {n}_machine : machine := Machine {n}_states {n}_trs {n}_eof {ff}.')
        out.append('')
    open(OUT, 'w').write('\n'.join(out))
    exits()

def exits():
    """MachineExits.v: for each state that is not final a byte on a shortest way to a final one."""
    out = ['(** GENERATED by tools/ragel2coq.py; do not edit.  Proof artefact: from each state a',
           '    byte on a way to a final state (checked in ParseError.v). *)',
           'From stdpp Require Import list numbers.', 'Local Open Scope Z_scope.', '']
    def target(body, trs, c):
        toks = re.findall(r'If|Goto|ToState|ToTr|\d+', body); i = 0
        def skip(i):
            if toks[i] == 'Goto': return i + 3
            return skip(skip(i + 3))
        while toks[i] == 'If':
            i = i + 3 if int(toks[i + 1]) <= c <= int(toks[i + 2]) else skip(i + 3)
        n = int(toks[i + 2])
        return n if toks[i + 1] == 'ToState' else trs[n][1]
    for n in ['check', 'foreign_key', 'index', 'trigger']:
        ff, states, trs, finals = P(n).parse()
        good = {q for q in states if q >= ff}; way = {}
        step = {q: [target(b[0], trs, c) for c in range(256)] for q, b in states.items()}
        while True:
            new = {}
            for q in states:
                if q in good: continue
                for c in range(256):
                    if step[q][c] in good: new[q] = c; break
            if not new: break
            way.update(new); good |= set(new)
        assert good == set(states), n
        out.append(f'Definition {n}_exits : list (N * Z) :=\n  [' + '; '.join(f'({q}%N, {c})' for q, c in sorted(way.items())) + '].')
    open(OUT.replace('Tables', 'Exits'), 'w').write('\n'.join(out) + '\n')
main()
