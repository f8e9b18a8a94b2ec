import sys,json,os,importlib,importlib.util
q=json.load(open(sys.argv[1]))
d,f=os.path.split(q['file']); sys.path.append(d or '.')
import io
try:
    m=importlib.import_module(os.path.splitext(f)[0])
    if q['schema'] is not None: m.__NEUTRAL_SCHEMA__=q['schema']
    if q['schema_data'] is not None: m.__NEUTRAL_SCHEMA_DATA__=q['schema_data']
    r=getattr(m,q['callback'])(q['params'])
    print(json.dumps({"ok":r}),end='')
except BaseException as e:
    print("ERR",e,end='')
