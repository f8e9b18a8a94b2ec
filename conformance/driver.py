"""The extracted model behind the template API, with an environment made of the real file system, Python and clock."""
import json,os,sys,hashlib,subprocess,tempfile,time,random,datetime
from mini import load,lst,byt
HERE=os.path.dirname(os.path.abspath(__file__)); WORK=os.environ.get('CONF','/tmp/conf')
L=load(WORK+'/model.json'); G=lambda f,*a: L['g_'+f](*a)
ex=lambda s: lst(s.encode('utf8','surrogateescape') if isinstance(s,str) else s)
im=lambda l: byt(l).decode('utf8','surrogateescape')
some=lambda x: ('None',) if x is None else ('Some',x)
def fmt(f):
    if f==int(f) and abs(f)<1e16: return '%.1f'%f
    return repr(f)
def num(v):
    if isinstance(v,float): return ('NFloat',ex(fmt(v)),v>0)
    if v<0: return ('NNeg',-v)
    return ('NPos',v)
def to_model(v):
    if v is None: return ('JNull',)
    if isinstance(v,bool): return ('JBool',v)
    if isinstance(v,(int,float)): return ('JNum',num(v))
    if isinstance(v,str): return ('JStr',ex(v))
    if isinstance(v,list): return ('JArr',lst([to_model(x) for x in v]))
    return ('JObj',lst([('Pair',ex(k),to_model(x)) for k,x in v.items()]))
def items(l):
    while l: yield l[0]; l=l[1]
def of_model(j):
    t=j[0]
    if t=='JNull': return None
    if t=='JBool': return j[1]
    if t=='JNum':
        s=im(G('num_to_string',j[1])); return float(s) if j[1][0]=='NFloat' else int(s)
    if t=='JStr': return im(j[1])
    if t=='JArr': return [of_model(x) for x in items(j[1])]
    return {im(p[1]):of_model(p[2]) for p in items(j[1])}
def bad(x): raise ValueError(x)
def big(s):
    v=int(s)
    if s.startswith('-') and v==0: return -0.0
    return v if -2**63<=v<2**64 else float(v)
def parse(s): return json.loads(s,parse_constant=bad,parse_int=big)
def show(v): return json.dumps(v,ensure_ascii=False,separators=(',',':'))
def from_str(c):
    try: return ('Inl',to_model(parse(im(c))))
    except ValueError as e: return ('Inr',ex(str(e)))
class Clock: now=int(time.time())
def attempt(f,*k):
    try: return f()
    except OSError: return None
def did(f):
    try: f(); return ('None',)
    except OSError as e: return ('Some',ex(str(e)))
def parent(p):
    s=im(p)
    if s in('','/'): return ('None',)
    d=s.rsplit('/',1)
    return ('Some',ex('' if len(d)==1 else d[0] or '/'))
def fadd(a,b):
    try: r=float(im(a))+float(im(b))
    except ValueError: return ex('?')
    return ex('%.0f'%r if r==int(r) else repr(r))
def write(t,p,c):
    def f():
        open(im(p),'wb').write(byt(c)); os.utime(im(p),(Clock.now,Clock.now))
    return did(f)
def python(t,a):
    opt=lambda o: None if o[0]=='None' else of_model(o[1])
    q={'file':im(a[1]),'params':of_model(a[2]),'callback':im(a[3]),'schema':opt(a[4]),'schema_data':opt(a[5])}
    with tempfile.NamedTemporaryFile('w',suffix='.json') as f:
        f.write(json.dumps(q)); f.flush()
        r=subprocess.run([sys.executable,HERE+'/pyexec.py',f.name],capture_output=True,text=True).stdout
    try: return ('Inl',to_model(parse(r)['ok']))
    except ValueError: return ('Inr',ex(r))
def md5(s): return ex(hashlib.md5(byt(s)).hexdigest())
def sha(s): return ex(hashlib.sha256(byt(s)).hexdigest())
def lower(s): return ex(im(s).lower())
def to_string(j): return ex(show(of_model(j)))
def to_pretty(j): return ex(json.dumps(of_model(j),ensure_ascii=False,indent=2))
def date(n,f): return ('Some',ex(datetime.datetime.fromtimestamp(n,datetime.timezone.utc).strftime(im(f))))
def exists(t,p): return os.path.exists(im(p))
def is_file(t,p): return os.path.isfile(im(p))
def canon(t,p): return some(attempt(lambda: ex(os.path.realpath(im(p),strict=True))))
def read(t,p): return some(attempt(lambda: ex(open(im(p),'rb').read())))
def read_err(t,p): return ex('No such file or directory (os error 2)')
def mkdir(t,p): return did(lambda: os.makedirs(im(p),exist_ok=True))
def create(t,p): return did(lambda: open(im(p),'wb'))
def mtime(t,p): return some(attempt(lambda: int(os.stat(im(p)).st_mtime)))
def age(t,p): return some(attempt(lambda: max(0,int(Clock.now-os.stat(im(p)).st_mtime))))
def now(t): return Clock.now
def local_now(t): return ex('now')
def rand(t,lo,hi): return random.randint(lo,hi)
def rand_bytes(t): return lst(random.randbytes(16))
def php(t,a): return ('Inr',ex('no php'))
ENV=('MkEnv',md5,sha,lower,from_str,to_string,to_pretty,fadd,parent,date,ex('/repo'),ex(WORK+'/tmp'),exists,is_file,canon,read,read_err,mkdir,create,write,mtime,age,now,local_now,rand,rand_bytes,python,php)
class Panic(Exception): pass
class D:
    def __init__(s): s.t=None; Clock.now=int(time.time())
    def keep(s,r):
        if r[0]=='TOk': s.t=r[2]; return r[1]
        raise Panic(r[1][0] if r[0]=='TPanic' else 'loop')
    def __call__(s,c,a=''):
        try: return s.run(c,a)
        except Panic as p: return 'exn',str(p)
    def run(s,c,a):
        if c=='new': s.keep(G('template_new',ENV))
        elif c=='src': s.t=G('set_src_str',ex(a),s.t)
        elif c=='sleep': Clock.now+=1
        elif c in('merge','path'):
            r=s.keep(G({'merge':'merge_schema_str','path':'set_src_path'}[c],ENV,ex(a),s.t))
            if r[0]=='Some': return 'err',im(r[1])
        elif c in('render','render_once'): return 'out',im(s.keep(G(c,ENV,50,s.t)))
        elif c=='has_error': return 'bool','true' if G('get_has_error',s.t) else 'false'
        elif c=='error': return 's',show(of_model(G('get_error',s.t)))
        else: return 's',im(G('get_'+c,s.t))
        return 'ok',''
    def call(s,f,a,b=''):
        bl=lambda x: 'true' if x else 'false'; op=lambda o: 'None' if o[0]=='None' else 'Some(%d)'%o[1]
        if f in('escape_chars','unescape_chars'): return im(G(f,ex(a),b=='true'))
        if f=='wildcard_match': return bl(G(f,ex(a),ex(b)))
        if f=='find_tag_position': return op(G(f,ex(a),ex(b)))
        if f=='get_code_position': return op(G(f,ex(a)))
        if f=='get_from_key': return im(G(f,to_model(parse(a)),ex(b)))
        if f.startswith('is_'): return bl(G(f,to_model(parse(a)),ex(b)))
        if f=='merge_schema': return show(of_model(G(f,to_model(parse(a)),to_model(parse(b)))))
        if f.startswith('filter_'): return show(of_model(G(f,to_model(parse(a)))))
        if f=='remove_comments': r=G(f,ex(a)); return im(r[1]) if r[0]=='Some' else 'panic'
        if f=='extract_blocks': r=G(f,ex(a)); return ','.join('(%d,%d)'%(p[1],p[2]) for p in items(r[1])) if r[0]=='Blocks' else 'err'
        raise KeyError(f)
