#!/usr/bin/env python3
"""Translate the parser tests of /repo/src/parser/tests that parse a source and
look at the variants of the nodes of the tree into Coq examples
(rocq/theories/Conformance.v)."""
import re, glob, os
def fn_bodies(text):
    for m in re.finditer(r'#\[test\]\s*fn (\w+)\(\)\s*\{', text):
        i = m.end(); depth = 1; j = i
        # skip strings crudely
        while depth and j < len(text):
            if text.startswith('r#"', j):
                j = text.index('"#', j + 3) + 2; continue
            if text[j] == '"':
                j += 1
                while text[j] != '"':
                    j += 2 if text[j] == '\\' else 1
                j += 1; continue
            if text[j] == "'" and text[j+1:j+3] in ('{\'', '}\''):
                j += 3; continue
            if text[j] == '{': depth += 1
            if text[j] == '}': depth -= 1
            j += 1
        yield m.group(1), text[i:j]
def source(body):
    m = re.search(r'let src\s*(?::[^=]*)?=\s*(r#"(.*?)"#|r"([^"]*)"|"((?:[^"\\]|\\.)*)")', body, re.S)
    if not m: return None
    if m.group(2) is not None: return m.group(2)
    if m.group(3) is not None: return m.group(3)
    s = m.group(4)
    s = re.sub(r'\\\n\s*', '', s)
    return s.replace('\\"', '"').replace('\\n', '\n').replace('\\\\', '\\')
def path(chain):
    return [int(x) for x in re.findall(r'shared_child\(\s*(\d+)\s*\)', chain)]
def checks(body):
    out = []
    for m in re.finditer(r'match doctree((?:\s*\.\w+\([^()]*\)(?:\s*\.unwrap\(\))?)*?)\s*\.shared_data\(\)\s*\{\s*TreeNodeType::(\w+)', body):
        out.append((path(m.group(1)), m.group(2)))
    for m in re.finditer(r'if let TreeNodeType::(\w+)\s*\{[^{}]*\}\s*=\s*doctree((?:\s*\.\w+\([^()]*\)(?:\s*\.unwrap\(\))?)*?)\s*\.shared_data\(\)', body):
        out.append((path(m.group(2)), m.group(1)))
    return out
def lines(src):
    ls = src.split('\n')
    if ls and ls[-1] == '': ls.pop()
    return [l[:-1] if l.endswith('\r') else l for l in ls]
def coq_str(s):
    if all(32 <= ord(c) < 127 for c in s):
        return 'lit "%s"' % s.replace('"', '""')
    parts, cur = [], ''
    for c in s:
        if 32 <= ord(c) < 127: cur += c
        else:
            if cur: parts.append('lit "%s"' % cur.replace('"', '""')); cur = ''
            parts.append('[%d%%N]' % ord(c))
    if cur: parts.append('lit "%s"' % cur.replace('"', '""'))
    return ' ++ '.join(parts)
def main():
    exs = []; skipped = []
    for f in sorted(glob.glob('/repo/src/parser/tests/*.rs')):
        text = open(f).read()
        text = re.sub(r'(?m)^\s*//.*$', '', text)
        for name, body in fn_bodies(text):
            if 'Parser::new' not in body or 'State::Body' not in body:
                skipped.append(name); continue
            src = source(body); cs = checks(body)
            if src is None:
                skipped.append(name); continue
            exs.append((os.path.basename(f), name, lines(src), cs, 'perform_restructuredtext' in body))
    with open('/verif/rocq/theories/Conformance.v', 'w') as o:
        o.write('(* Conformance.v -- generated by tools/conformance.py.  The parser tests of\n'
                '   /repo/src/parser/tests, run in the model: for each test the variants it\n'
                '   expects at the paths it looks at.  These are tests of the model, not proofs. *)\n'
                'From Verif Require Import Base Common NodeTypes Tree DocTree Prog ParseLoop Parser ConformanceBase.\n\n')
        for f, name, ls, cs, tr in exs:
            o.write('(* %s %s *)\nExample %s : conforms %s [\n  ' % (f, name, name, 'true' if tr else 'false'))
            o.write(';\n  '.join(coq_str(l) if l else '[]' for l in ls))
            o.write('] [' + '; '.join('([%s], K%s)' % ('; '.join(map(str, p)), k) for p, k in cs) + '] = true.\n')
            o.write('Proof. vm_compute. reflexivity. Qed.\n')
    print(len(exs), 'examples,', sum(len(e[3]) for e in exs), 'checks; skipped', len(skipped), skipped)
    print('no checks:', [e[1] for e in exs if not e[3]])
main()
