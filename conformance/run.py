"""Reads the Rust tests as text and makes their API calls on the extracted model."""
import re,sys,os
TOK=re.compile(r'r(#+)"(.*?)"\1|r"([^"]*)"|"((?:[^"\\]|\\.)*)"',re.S)
def unesc(s):
    def f(m):
        c=m.group(1)
        if c=='n':return'\n'
        if c=='t':return'\t'
        if c=='r':return'\r'
        if c=='0':return'\0'
        if c[0]=='u':return chr(int(c[2:-1],16))
        if c[0]=='\n':return''
        return c
    return re.sub(r'\\(u\{[0-9a-fA-F]+\}|\n\s*|.)',f,s,flags=re.S)
def lit(e,vars):
    e=e.strip()
    trim=False
    while True:
        m=re.match(r'^(.*?)\s*\.\s*(trim|to_string|as_str|clone|into)\(\)\s*$',e,re.S)
        if not m: break
        e=m.group(1).strip(); trim|=m.group(2)=='trim'
    e=e.lstrip('&').strip()
    if e.endswith(','): e=e[:-1].strip()
    m=TOK.fullmatch(e)
    if m:
        s=m.group(2) if m.group(1) else (m.group(3) if m.group(3) is not None else unesc(m.group(4)))
    elif e in vars: s=vars[e]
    elif re.fullmatch(r'(\w+)\[(\d+)\.\.(\d+)\]',e):
        m=re.fullmatch(r'(\w+)\[(\d+)\.\.(\d+)\]',e); s=vars[m.group(1)][int(m.group(2)):int(m.group(3))]
    else: raise KeyError(e)
    return s.strip() if trim else s
def strip_comments(t):
    # remove // comments outside strings
    out=[];i=0
    while i<len(t):
        m=TOK.match(t,i)
        if m: out.append(m.group(0)); i=m.end(); continue
        if t.startswith('//',i):
            j=t.find('\n',i); i=j if j>=0 else len(t); continue
        if t[i]=="'" :
            m=re.match(r"'(\\.|[^\\'])'",t[i:])
            if m: out.append(m.group(0)); i+=m.end(); continue
        out.append(t[i]); i+=1
    return ''.join(out)
def consts(t,vars):
    for m in re.finditer(r'const (\w+): &str = ',t):
        k=TOK.match(t,m.end())
        if k: vars[m.group(1)]=lit(k.group(0),{})
def args(t,i):
    # t[i] == '(' ; return content and end
    d=0;j=i
    while j<len(t):
        m=TOK.match(t,j)
        if m: j=m.end(); continue
        if t[j] in '([{': d+=1
        if t[j] in ')]}':
            d-=1
            if d==0: return t[i+1:j],j+1
        j+=1
def split2(a):
    d=0;j=0
    while j<len(a):
        m=TOK.match(a,j)
        if m: j=m.end(); continue
        if a[j] in '([{': d+=1
        if a[j] in ')]}': d-=1
        if a[j]==',' and d==0: return a[:j],a[j+1:]
        j+=1
from driver import D,WORK
base={}
CT=open('/repo/src/constants.rs').read()
base['NEUTRAL_JS']=re.search(r'NEUTRAL_JS: String = r#"(.*?)"#',CT,re.S).group(1).replace('\n','').replace('  ','')
for m in re.finditer(r'const (\w+): &str = (?:concat!\(\s*)?',CT):
    k=TOK.match(CT,m.end())
    if k: base[m.group(1)]=lit(k.group(0),{})
consts(strip_comments(open('/repo/src/test_helpers.rs').read()),base)
def main(files):
    ok=bad=skip=0
    for f in files:
        t=strip_comments(open(f).read()); fv=dict(base); consts(t,fv)
        for m in re.finditer(r'#\[test\]\s*(?:#\[[^\]]*\]\s*)*fn (\w+)\(\)',t):
            name=m.group(1)
            if '_php' in name: skip+=1; print('SKIP',name,'needs php-fpm, skipped by the repository too'); continue
            i=t.index('{',m.end()); body,_=args(t,i)
            vars=dict(fv); d=D(); probs=[]; unk=[]
            pos=0
            pat=re.compile(r'let (?:mut )?(\w+)(?:: [^=]+)? =\s+((?:&)?(?:r#*"|"))|Template::new\(\)|\.(merge_schema_str|set_src_str|set_src_path)\(|let (?:mut )?(\w+) = template\d?\.(render|render_once)\(\)|(assert(?:_eq|_ne)?)!\(|(template\d?)\.(render|render_once)\(\)|(thread::sleep)|File::create\("([^"]*)"|(set_python_src_with_script)\(|let (\w+): Vec<&str> = (\w+)\.split\(("[^"]*")\)')
            while True:
                k=pat.search(body,pos)
                if not k: break
                if k.group(1):
                    st=k.end()-len(k.group(2).lstrip('&')); tk=TOK.match(body,st); e=tk.end()
                    mm=re.match(r'\s*\.trim\(\)',body[e:]); v=lit(tk.group(0),{})
                    if mm: v=v.strip(); e+=mm.end()
                    mm=re.match(r'\s*\.replace\("\{\}", &neutral_js\)',body[e:])
                    if mm: v=v.replace('{}',fv['NEUTRAL_JS']); e+=mm.end()
                    vars[k.group(1)]=v; pos=e; continue
                if 'Template::new' in k.group(0): d('new'); pos=k.end(); continue
                if k.group(3):
                    a,e=args(body,k.end()-1); pos=e
                    try: v=lit(a,vars)
                    except KeyError as x: unk.append(str(x)); continue
                    r=d({'merge_schema_str':'merge','set_src_str':'src','set_src_path':'path'}[k.group(3)],v)
                    if r[0]!='ok': probs.append((k.group(3),r))
                    continue
                if k.group(4):
                    r=d(k.group(5)); vars[k.group(4)]=r[1] if r[0]=='out' else 'EXN '+r[1]; pos=k.end(); continue
                if k.group(6):
                    a,e=args(body,k.end()-1); pos=e
                    kind=k.group(6)
                    if kind=='assert':
                        a=a.strip()
                        if a=='false': continue
                        m2=re.fullmatch(r'(!?)template\d?\.has_error\(\)',a)
                        if m2:
                            r=d('has_error')[1]
                            if (r=='true')==(m2.group(1)=='!'): probs.append(('has_error',a,r,vars.get('result')))
                            continue
                        unk.append('assert '+a); continue
                    x=split2(a)
                    try:
                        def ev(e):
                            e=e.strip()
                            m3=re.fullmatch(r'template\d?\.get_(status_code|status_text|status_param)\(\)',e)
                            if m3: return d(m3.group(1))[1]
                            return lit(e,vars)
                        l,r=ev(x[0]),ev(x[1])
                    except KeyError as ee: unk.append(kind+' '+str(ee)); continue
                    if (l==r)!=(kind=='assert_eq'): probs.append((kind,l,r))
                    continue
                if k.group(9): d('sleep'); pos=k.end(); continue
                if k.group(10): open(k.group(10),'w'); pos=k.end(); continue
                if k.group(11):
                    a,e=args(body,k.end()-1); pos=e; x=split2(split2(a)[1])
                    open(WORK+'/nts_script.py','w').write(re.search(r'fn create_schema_data_test_script.*?r#"(.*?)"#',t,re.S).group(1))
                    d('src',lit(x[0],vars).replace('__SCRIPT__',WORK+'/nts_script.py')); continue
                if k.group(12):
                    for n,v in enumerate(vars[k.group(13)].split(lit(k.group(14),{}))): vars['%s[%d]'%(k.group(12),n)]=v
                    pos=k.end(); continue
                if k.group(7): d(k.group(8)); pos=k.end(); continue
            if probs: bad+=1; print('BAD',os.path.basename(f),name,probs)
            elif unk: skip+=1; print('UNK',os.path.basename(f),name,unk)
            else: ok+=1
    print('ok',ok,'bad',bad,'unk',skip)

if __name__=='__main__': os.chdir('/repo'); main(sys.argv[1:])
