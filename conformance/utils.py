"""The assertions of tests/test-utils.rs on the extracted model."""
import re,os,sys
from run import strip_comments,consts,args,split2,lit,TOK,base,D
t=strip_comments(open('/repo/tests/test-utils.rs').read()); base2=dict(base); consts(t,base2)
d=D(); ok=bad=0; unk=[]
def norm(j):
    import json; return json.dumps(json.loads(re.sub(r',(\s*[}\]])',r'\1',j)),ensure_ascii=False,separators=(',',':'),sort_keys=True)
call=d.call
def ev(e,v):
    e=e.strip()
    m=re.match(r'(\w+)\(',e)
    if m:
        a,_=args(e,m.end()-1)
        if m.group(1)=='Some': return e
        if m.group(1)=='extract_blocks': return call('extract_blocks',ev(a,v))
        x=split2(a)
        if m.group(1) in('get_code_position',): return call(m.group(1),ev(a,v))
        return call(m.group(1),ev(x[0],v),ev(x[1],v))
    if e in('true','false','None'): return e
    return lit(e,v)
def chk(n,a,b):
    global ok,bad
    if a==b: ok+=1
    else: bad+=1; print('BAD',n,repr(a),repr(b))
for m in re.finditer(r'#\[test\]\s*fn (\w+)\(\) ',t):
    body,_=args(t,m.end()); v=dict(base2); pos=0; n=m.group(1)
    for k in re.finditer(r'let (?:mut )?(\w+)(?:: Value)? = (?:serde_json::)?json!\(',body): v[k.group(1)]=norm(args(body,k.end()-1)[0])
    for k in re.finditer(r'let (?:mut )?(\w+) = ("|r#)',body): v[k.group(1)]=lit(TOK.match(body,k.start(2)).group(0),{})
    for k in re.finditer(r'let (?:mut )?(\w+) = (\w+\()',body):
        try: v[k.group(1)]=ev(body[k.start(2):],v)
        except Exception as x: pass
    for k in re.finditer(r'let expected = vec!\[(.*?)\];',body,re.S): v['expected']=re.sub(r'\s','',k.group(1)).rstrip(',')
    k=re.search(r'\bmerge_schema\(&mut a, &b\)',body)
    if k: v['a']=norm(call('merge_schema',v['a'],v['b']))
    for f in('filter_value','filter_value_keys'):
        if f+'(&mut input)' in body: v['input']=norm(call(f,v['input']))
    for k in re.finditer(r'assert(_eq)?!\(',body):
        a,_=args(body,k.end()-1)
        try:
            if k.group(1):
                x=split2(a); chk(n,re.sub(r'\.unwrap\(\)','',ev(x[0],v)),ev(x[1],v))
            else:
                a=a.strip(); neg=a.startswith('!'); chk(n,ev(a.lstrip('!'),v),'false' if neg else 'true')
        except Exception as x: unk.append((n,a,repr(x)))
print('utils ok',ok,'bad',bad,'unk',unk)
