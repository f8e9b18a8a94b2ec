"""Runs the JSON that Coq's `Extraction Language JSON` writes: each extracted term becomes a Python function.
bool, ascii, nat, positive, N and Z are native; every other constructor is a tuple ('Name', arg, ...), lists are (head, tail) and ()."""
import json,sys
sys.setrecursionlimit(10**7) # and `ulimit -s unlimited`, see run.sh
INTS={'O','S','XI','XO','XH','N0','Npos','Z0','Zpos','Zneg'}
NATIVE={'add':'a+b','sub':'max(0,a-b)','eqb':'a==b','leb':'a<=b','ltb':'a<b','eqb2':'a==b','aeqb':'a==b','add0':'a+b','mul':'a*b','eqb0':'a==b',
        'add1':'a+b','sub0':'max(0,a-b)','mul0':'a*b','eqb1':'a==b','leb0':'a<=b','ltb0':'a<b','add2':'a+b','sub1':'a-b','mul1':'a*b','leb1':'a<=b','ltb1':'a<b','eqb3':'a==b'}
NATIVE_TYPES={'nat','positive','n','z','ascii'}
class Partial:
    def __init__(s,f,a): s.f=f; s.a=a
def ap(f,*a):
    if f.__class__ is Partial: a=f.a+a; f=f.f
    n=f.__code__.co_argcount
    if len(a)==n: return f(*a)
    if len(a)<n: return Partial(f,a)
    return ap(f(*a[:n]),*a[n:])
def lst(b):
    r=()
    for c in reversed(b): r=(c,r)
    return r
def byt(l):
    o=bytearray()
    while l: o.append(l[0]); l=l[1]
    return bytes(o)
class Comp:
    def __init__(s,m):
        s.n=0; s.arity={}; s.carity={}; s.env={'ap':ap,'lst':lst,'Partial':Partial}; s.consts=0
        for d in m['declarations']:
            if d['what']=='decl:ind':
                for c in d['constructors']: s.carity[c['name']]=len(c['argtypes'])
        for d in m['declarations']:
            if d['what']=='decl:term': s.top([d])
            elif d['what']=='decl:fixgroup': s.top(d['fixlist'])
    def fresh(s,x='t'):
        s.n+=1; return '%s_%d'%(''.join(c if c.isalnum() else '_' for c in x),s.n)
    def top(s,ds):
        for d in ds:
            while d['value']['what']=='expr:lambda' and not d['value']['argnames']: d['value']=d['value']['body']
        for d in ds:
            v=d['value']; s.arity[d['name']]=len(v['argnames']) if v['what']=='expr:lambda' else 0
        for d in ds:
            nm='g_'+d['name'].replace("'",'_q'); v=d['value']; ty=d['type']
            if d['name'] in NATIVE and ty['what']=='type:arrow' and ty['left'].get('name') in NATIVE_TYPES and s.arity[d['name']]==2:
                exec('def %s(a,b): return %s'%(nm,NATIVE[d['name']]),s.env); continue
            out=[]
            if v['what']=='expr:lambda': s.fun(nm,v['argnames'],v['body'],{},out,0)
            else:
                a=s.ex(v,{},out,0); out.append('%s=%s'%(nm,a))
            s.src=getattr(s,'src',{}); s.src[nm]='\n'.join(out)
            exec(compile('\n'.join(out),'<%s>'%nm,'exec'),s.env)
    def fun(s,nm,args,body,sc,out,i):
        sc=dict(sc); ps=[]
        for a in args:
            p=s.fresh(a); sc[a]=p; ps.append(p)
        out.append('  '*i+'def %s(%s):'%(nm,','.join(ps))); s.tail(body,sc,out,i+1)
    def tail(s,e,sc,out,i):
        w=e['what']
        if w=='expr:case': s.case(e,sc,out,i,lambda b,sc,out,i: s.tail(b,sc,out,i))
        elif w=='expr:let':
            v=s.ex(e['nameval'],sc,out,i); t=s.fresh(e['name']); out.append('  '*i+t+'='+v); s.tail(e['body'],{**sc,e['name']:t},out,i)
        else: out.append('  '*i+'return '+s.ex(e,sc,out,i))
    def case(s,e,sc,out,i,k):
        x=s.fresh('x'); out.append('  '*i+x+'='+s.ex(e['expr'],sc,out,i)); cs=e['cases']
        for n,c in enumerate(cs):
            p=c['pat']; sc2=dict(sc); last=n==len(cs)-1; j=i if last else i+1
            binds=[]; cond='True'
            if p['what']=='pat:rel': binds=[(p['name'],x)]
            elif p['what']=='pat:constructor':
                nm=p['name']; a=p['argnames']
                if nm in INTS:
                    cond,v={'O':(x+'==0',''),'S':(x+'>0',x+'-1'),'XH':(x+'==1',''),'XO':(x+'&1==0',x+'>>1'),'XI':(x+'&1==1 and %s>1'%x,x+'>>1'),'N0':(x+'==0',''),'Npos':(x+'>0',x),'Z0':(x+'==0',''),'Zpos':(x+'>0',x),'Zneg':(x+'<0','-'+x)}[nm]
                    binds=[(y,v) for y in a]
                elif nm in('True','False'): cond=x if nm=='True' else 'not '+x
                elif nm=='Ascii': binds=[(y,'bool(%s>>%d&1)'%(x,q)) for q,y in enumerate(a)]
                elif nm in('Nil','Cons','EmptyString','String'): cond=x if nm in('Cons','String') else 'not '+x; binds=[(y,'%s[%d]'%(x,q)) for q,y in enumerate(a)]
                else: cond='%s[0]==%r'%(x,nm); binds=[(y,'%s[%d]'%(x,q+1)) for q,y in enumerate(a)]
            if not last: out.append('  '*i+'if %s:'%cond)
            for y,v in binds:
                if y!='_': t=s.fresh(y); sc2[y]=t; out.append('  '*j+t+'='+v)
            k(c['body'],sc2,out,j)
    def const(s,e):
        b=bytearray()
        while e['name'] in('Cons','String'):
            h=e['args'][0]
            if h['what']!='expr:constructor' or h['name']!='Ascii' or any(a['what']!='expr:constructor' for a in h['args']): return None
            b.append(sum((a['name']=='True')<<q for q,a in enumerate(h['args']))); e=e['args'][1]
            if e['what']!='expr:constructor': return None
        return bytes(b)
    def ex(s,e,sc,out,i):
        w=e['what']
        if w=='expr:rel': return sc[e['name']]
        if w=='expr:global': return 'g_'+e['name'].replace("'",'_q')
        if w=='expr:constructor':
            nm=e['name']
            if nm in('Cons','String') and e['args']:
                b=s.const(e)
                if b is not None: s.consts+=1; s.env['K%d'%s.consts]=lst(b); return 'K%d'%s.consts
            if len(e['args'])<s.carity[nm]:
                ps=['p%d'%q for q in range(s.carity[nm]-len(e['args']))]; t=s.fresh('con'); a=[s.ex(x,sc,out,i) for x in e['args']]
                out.append('  '*i+'def %s(%s): return %s'%(t,','.join(ps),s.con(nm,a+ps))); return t
            return s.con(nm,[s.ex(x,sc,out,i) for x in e['args']])
        if w=='expr:apply':
            f=e['func']; a=[s.ex(x,sc,out,i) for x in e['args']]
            if f['what']=='expr:global' and s.arity.get(f['name'])==len(a): return 'g_%s(%s)'%(f['name'].replace("'",'_q'),','.join(a))
            return 'ap(%s,%s)'%(s.ex(f,sc,out,i),','.join(a))
        if w=='expr:lambda' and not e['argnames']: return s.ex(e['body'],sc,out,i)
        if w=='expr:lambda':
            t=s.fresh('lam'); s.fun(t,e['argnames'],e['body'],sc,out,i); return t
        if w=='expr:let':
            v=s.ex(e['nameval'],sc,out,i); t=s.fresh(e['name']); out.append('  '*i+t+'='+v); return s.ex(e['body'],{**sc,e['name']:t},out,i)
        if w=='expr:fix':
            sc2=dict(sc)
            for f in e['funcs']: sc2[f['name']]=s.fresh(f['name'])
            for f in e['funcs']: s.fun(sc2[f['name']],f['body']['argnames'],f['body']['body'],sc2,out,i)
            return sc2[e['for']] if 'for' in e and isinstance(e['for'],str) else sc2[e['funcs'][0]['name']]
        if w=='expr:case':
            t=s.fresh('c'); out.append('  '*i+'def %s():'%t); s.tail(e,sc,out,i+1); return t+'()'
        raise Exception(w)
    def con(s,nm,a):
        if nm in('True','False'): return nm
        if nm in INTS: return {'O':'0','S':'(%s+1)','XH':'1','XO':'(%s<<1)','XI':'(%s<<1|1)','N0':'0','Npos':'%s','Z0':'0','Zpos':'%s','Zneg':'(-%s)'}[nm]%tuple(a)
        if nm=='Ascii': return '('+'|'.join('%s<<%d'%(x,q) for q,x in enumerate(a))+')'
        if nm in('Nil','EmptyString'): return '()'
        if nm in('Cons','String'): return '(%s,%s)'%tuple(a)
        return '(%r,%s)'%(nm,','.join(a)+(',' if a else ''))
def load(path): return Comp(json.loads(open(path).read())).env
