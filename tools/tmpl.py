import re
src=open('/repo/generate/avro_template.go').read()
lines=src.split('\n')
def grab(name):
    i=src.index(name+' = `')
    s=src[i+len(name)+4:]
    j=s.index('`')
    a=src[:i].count('\n')+1
    b=a+s[:j].count('\n')
    return s[:j],a,b
def coq(s):
    # one line per piece, joined by Coq strings with real newlines
    assert '*)' not in s.replace('""','') or True
    return '"'+s.replace('"','""')+'"%string'
out=['(** The templates of the helper functions, generate/avro_template.go. *)','From Coq Require Import String.','']
for n,c in (('avroTemplate','avro_template'),('avroTestTemplate','avro_test_template')):
    t,a,b=grab(n)
    out.append('(** avro_template.go %d-%d *)'%(a,b))
    out.append('Definition %s : string := %s.'%(c,coq(t)))
open('/tmp/w/rocq/theories/Template.v','w').write('\n'.join(out)+'\n')
