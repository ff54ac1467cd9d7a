#!/usr/bin/env python3
"""Assemble a Prop*.v file from a plan: statements are copied from the named lemmas.
Plan items: ('h', text) verbatim; ('t', theorem, lemma, file, comment)."""
import re, os
T = os.path.join(os.path.dirname(os.path.abspath(__file__)), '..', 'rocq', 'theories')
def stmt(f, lem):
    s = open(os.path.join(T, f + '.v')).read()
    m = re.search(r'^Lemma ' + re.escape(lem) + r'\b(.*?)\.\s*\n?Proof', s, re.M | re.S)
    assert m, (f, lem)
    b = m.group(1)
    if b.lstrip().startswith(':'):
        return b.lstrip()[1:].strip()
    # binders before the colon -> forall
    depth = 0
    for k, c in enumerate(b):
        if c in '([{': depth += 1
        elif c in ')]}': depth -= 1
        elif c == ':' and depth == 0:
            return 'forall' + ' ' + b[:k].strip() + ',\n  ' + b[k+1:].strip()
    raise Exception(lem)
def literal(s):
    # constants of the model are written out in the statements (the proof is by conversion)
    for k, v in (('se3_eps', '/ 1000000'), ('eps6', '/ 1000000'), ('eps12', '/ 1000000000000'), ('tum_eps', '/ 2 ^ 50')):
        s = re.sub(r'\b%s\b' % k, v, s)
    return s
def gen(out, plan):
    o = []
    for p in plan:
        if p[0] == 'h': o.append(p[1])
        else:
            _, th, lem, f, com = p
            if com: o.append('(* ' + com + ' *)')
            src = open(os.path.join(T, f + '.v')).read()
            sc = re.findall(r'^Local Open Scope (\w+)\.', src, re.M)
            if 'nat_scope' in sc:  # scopes alternate in this file: take the one in force at the lemma
                sc = re.findall(r'^Local Open Scope (\w+)\.', src[:re.search(r'^Lemma ' + re.escape(lem) + r'\b', src, re.M).start()], re.M)
            if sc and sc[-1] != 'nat_scope':   # the statement is read in the scope of its source file
                o.append('Local Open Scope %s.' % sc[-1])
            o.append('Theorem %s : %s.\nProof. exact %s. Qed.\nPrint Assumptions %s.\n' % (th, literal(stmt(f, lem)), lem, th))
            if sc and sc[-1] != 'nat_scope':
                o.append('Local Close Scope %s.' % sc[-1])
    open(os.path.join(T, out), 'w').write('\n'.join(o))
