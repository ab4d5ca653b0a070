#!/usr/bin/env python3
"""Writes theories/FixMapper.v: the mapper's text for the fixtures of /repo/generate/avro_test_data, against the
functions convertToAvro recorded there. Usage: fixmapper.py > theories/FixMapper.v"""
import re, glob
D = '/repo/generate/avro_test_data/'
def strip(s): return re.sub(r'//[^\n]*', '', s)
def toks(s): return re.findall(r'`[^`]*`|[A-Za-z_][A-Za-z0-9_]*|\[\]|[{}*.\n]', s)
def q(s): return '"' + s.replace('"', '""') + '"'
class P:
    def __init__(self, t): self.t, self.i = t, 0
    def peek(self): return self.t[self.i]
    def next(self): self.i += 1; return self.t[self.i - 1]
    def ty(self):
        x = self.next()
        if x == '*': return '(EStar %s)' % self.ty()
        if x == '[]': return '(EArray %s)' % self.ty()
        if x == 'struct': return '(EStruct %s)' % self.fields()
        if self.peek() == '.':
            self.next(); return '(ESel %s %s)' % (q(x), q(self.next()))
        return '(EIdent %s)' % q(x)
    def fields(self):
        assert self.next() == '{'
        out = []
        while True:
            while self.peek() == '\n': self.next()
            if self.peek() == '}': self.next(); break
            n = self.next()
            if self.peek() == '\n': out.append('AField [] (EIdent %s) "" ""' % q(n)); continue
            t = self.ty(); tag = ''
            if self.peek().startswith('`'): tag = self.next()
            out.append('AField [%s] %s %s ""' % (q(n), t, q(tag)))
        return '[' + '; '.join(out) + ']'
def structs(path):
    s = strip(open(path).read()); out = []
    for m in re.finditer(r'^type (\w+) struct', s, re.M):
        p = P(toks(s[m.start():])); p.next(); p.next(); p.next(); out.append((m.group(1), p.fields()))
    return out
def squash(s): return re.sub(r'\s', '', s).replace(',}', '}')
print('''(** The text the mapper makes for the structs of generate/avro_test_data, against the functions convertToAvro that are
    recorded there, without white space. Written by tools/fixmapper.py. *)
From stdpp Require Import strings list gmap.
From Coq Require Import Ascii.
From Verif Require Import GoStr Val Conv Avro AvroRun Mapper CaseMapper World.

Fixpoint squash (s : string) : string :=
  match s with
  | EmptyString => EmptyString
  | String a s' => if bool_decide (a ∈ [" "%char; "010"%char; "009"%char]) then squash s' else String a (squash s')
  end.
(** gofmt leaves out a comma before a closing brace on the same line *)
Fixpoint trailing (s : string) : string :=
  match s with
  | String a (String b _ as s') => if bool_decide (a = ","%char /\\ b = "}"%char) then trailing s' else String a (trailing s')
  | _ => s
  end.
Definition text (pkg : string) (o : option (option mfields)) : option (string * string) :=
  match o with
  | Some (Some c) => Some (trailing (squash (join "" (map (show_def pkg af_json) (mf_pre c)))), trailing (squash (show_fields pkg (mf_fields c))))
  | _ => None
  end.
''')
for name, file in [('Nested', 'nested'), ('Arrays', 'arrays'), ('Repeats', 'repeats'), ('Complex', 'complex'), ('Simple', 'simple'), ('Times', 'times')]:
    low = name.lower()
    main = dict(structs(D + file + '.go'))[name]
    base = [x for f in ['simple'] if low == 'complex' for x in structs(D + f + '.go')]
    avro = [x for f in sorted(glob.glob(D + 'avro/' + low + '/*.go')) for x in structs(f)]
    s = open(D + low + '_avro.go').read()
    m = re.search(r'AvroDeleted: true\}\n\t\}\n(.*?)\n\treturn &\w+\.\w+\{\n\s*AvroWriteTime:\s*aTime,\n(.*?)\n\t\}\n\}\n', s, re.S)
    pre, fields = squash(m.group(1)), squash(m.group(2))
    body = lambda l: '[' + ';\n   '.join('(%s, %s)' % (q(a), b) for a, b in l) + ']'
    print('(** generate/avro_test_data/%s.go, avro/%s and %s_avro.go *)' % (file, low, low))
    print('Definition %s_base : list (string * list afield) := %s.' % (low, body(base)))
    print('Definition %s_g : list afield := %s.' % (low, main))
    print('Definition %s_avro : list (string * list afield) :=\n  %s.' % (low, body(avro)))
    print('Example %s_text :\n  text %s (generate_mapping W0 (package %s_base) nowhere (pkg_of %s_avro) 30 %s (EStruct %s_g)) =\n  Some (%s,\n    %s).' % (low, q(low), low, low, q(name), low, q(pre), q(fields)))
    print('Proof. vm_compute. reflexivity. Qed.\n')
