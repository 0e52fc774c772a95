#!/usr/bin/env python3
"""Writes rocq/theories/LexTable.v: the states of the lexer, transcribed one by one from
sources/dfmc/reader/lexer-transitions.dylan of the repository given as argument (default /repo)."""
import re, sys, os
repo = sys.argv[1] if len(sys.argv) > 1 else '/repo'
src = open(os.path.join(repo, 'sources/dfmc/reader/lexer-transitions.dylan'), encoding='latin-1').read()
start = src.index('(state(#"not-allowed"')
pos = start + 1
ESC = {'t': 9, 'n': 10, 'f': 12, 'r': 13, '\\': 92, "'": 39, '"': 34}

def skip(p):
    while True:
        m = re.compile(r'\s+|//[^\n]*\n|,').match(src, p)
        if not m: return p
        p = m.end()

def token(p):
    """One token: ('sym', name), ('str', codes), ('chr', code), ('id', text), ('(',), (')',)"""
    p = skip(p)
    c = src[p]
    if src.startswith('#"', p):
        q = src.index('"', p + 2)
        return ('sym', src[p+2:q]), q + 1
    if src.startswith('#(', p): return ('#(',), p + 2
    if c in '()': return (c,), p + 1
    if c == '"':
        codes = []; p += 1
        while src[p] != '"':
            if src[p] == '\\': codes.append(ESC[src[p+1]]); p += 2
            else: codes.append(ord(src[p])); p += 1
        return ('str', codes), p + 1
    if c == "'":
        if src[p+1] == '\\': return ('chr', ESC[src[p+2]]), p + 4
        return ('chr', ord(src[p+1])), p + 3
    m = re.compile(r'[#A-Za-z0-9$<>*-]+|\.|;').match(src, p)
    return ('id', m.group(0)), m.end()

states = []
t, pos = token(pos)
while t == ('id', 'state') or t == ('id', 'conditionally-accepting-state'):
    line = src.count('\n', 0, pos) + 1
    cond = t[1] != 'state'
    t, pos = token(pos); assert t == ('(',)
    t, pos = token(pos); name = t[1]
    t, pos = token(pos)
    if t == ('id', '#f'): builder = None
    elif t[0] == 'sym': builder = t[1]
    elif t[1] == 'fragment-builder':
        a, pos = token(pos); b, pos = token(pos); c, pos = token(pos)
        builder = b[1]
    else: builder = t[1]
    action = None
    if cond:
        t, pos = token(pos); action = t[1]
    trans = []
    t, pos = token(pos)
    while t != (')',):
        if t == ('#(',):
            on, pos = token(pos)
            d, pos = token(pos); assert d == ('id', '.'), d
            to, pos = token(pos)
            e, pos = token(pos); assert e == (')',)
        else:
            assert t == ('id', 'pair')
            e, pos = token(pos)
            on, pos = token(pos); assert on == ('id', '$ascii-8-bit-extensions')
            on = ('str', [128, 45, 255])
            to, pos = token(pos)
            e, pos = token(pos); assert e == (')',)
        trans.append((on, to[1]))
        t, pos = token(pos)
    states.append((line, name, builder, action, trans))
    t, pos = token(pos)

def cn(n): return 'S_' + re.sub('[^A-Za-z0-9]', '_', n.replace('all-keys', 'all_keys')) if n != 'sharp-all-' and n != 'backslash-sharp-all-' else 'S_' + n[:-1].replace('-', '_') + '_minus'
def bn(b): return 'B_' + b.strip('<>').replace('-', '_')
def an(a): return 'A_' + a.replace('-', '_')
names = [s[1] for s in states]
assert len(set(map(cn, names))) == len(names)
builders = []
for s in states:
    if s[2] and s[2] not in builders: builders.append(s[2])
actions = []
for s in states:
    if s[3] and s[3] not in actions: actions.append(s[3])
out = []
w = out.append
w('(** GENERATED by tools/gen_lextable.py from sources/dfmc/reader/lexer-transitions.dylan:18-640.  Each state of')
w('    the source is one constructor, with its fragment builder, its action if it is a')
w('    conditionally-accepting-state, and its transitions in the order of the source.  Transition strings are')
w('    kept as they are (as codes), including their ranges. *)')
w('From Coq Require Import ZArith List.')
w('Import ListNotations.')
w('Local Open Scope Z_scope.')
w('')
w('Inductive lstate :=')
for n in names: w('  | ' + cn(n))
w('.')
w('')
w('(** What a state builds when it accepts. *)')
w('Inductive builder :=')
for b in builders: w('  | ' + bn(b))
w('.')
w('')
w('(** The action functions, lexer.dylan:1064-1109. *)')
w('Inductive action :=')
for a in actions: w('  | ' + an(a))
w('.')
w('')
w('(** What a transition is on: a character, a string (with ranges), or #"otherwise". *)')
w('Inductive on := OnChar (c : Z) | OnString (s : list Z) | OnOtherwise.')
w('')
w('Definition state_builder (s : lstate) : option builder :=')
w('  match s with')
for (line, n, b, a, tr) in states:
    if b: w('  | %s => Some %s (* %d *)' % (cn(n), bn(b), line))
w('  | _ => None')
w('  end.')
w('')
w('Definition state_action (s : lstate) : option action :=')
w('  match s with')
for (line, n, b, a, tr) in states:
    if a: w('  | %s => Some %s (* %d *)' % (cn(n), an(a), line))
w('  | _ => None')
w('  end.')
w('')
w('(** state-transitions; no transitions is the table #f. *)')
w('Definition state_transitions (s : lstate) : list (on * lstate) :=')
w('  match s with')
def show(o):
    if o[0] == 'chr': return 'OnChar %d' % o[1]
    if o[0] == 'sym': assert o[1] == 'otherwise'; return 'OnOtherwise'
    return 'OnString [' + '; '.join(map(str, o[1])) + ']'
for (line, n, b, a, tr) in states:
    if tr:
        w('  (* line %d *)' % line)
        w('  | %s =>' % cn(n))
        w('      [' + ';\n       '.join('(%s, %s)' % (show(o), cn(t)) for (o, t) in tr) + ']')
w('  | _ => []')
w('  end.')
w('')
w('Definition all_states : list lstate :=')
w('  [' + ';\n   '.join(cn(n) for n in names) + '].')
w('')
w('(** The place of a state in this list. *)')
w('Definition state_index (s : lstate) : nat :=')
w('  match s with')
for i, n in enumerate(names): w('  | %s => %d%%nat' % (cn(n), i))
w('  end.')
open(os.path.join(os.path.dirname(__file__), '../rocq/theories/LexTable.v'), 'w').write('\n'.join(out) + '\n')
print(len(states), 'states', len(builders), 'builders', actions)
