#!/usr/bin/env python3
"""Generates rocq/theories/ConstantsGen.v from /repo/src/constants.rs and default_json.rs
(literal text only; the generated file is committed)."""
import re, json
src=open('/repo/src/constants.rs').read()
out=["(** Generated by tools/gen_constants.py from /repo/src/constants.rs and /repo/src/default_json.rs. *)","",
"From Verif Require Import Bytes Json.","Local Open Scope list_scope.",""]
def lit(s): return '"'+s.replace('"','""')+'"'
def line_of(pos): return src.count('\n',0,pos)+1
for name in ["BIF_SANITIZE_OPEN","BIF_SANITIZE_CLOSE","UNPRINTABLE","BACKSPACE","SNIPPETS_FILES",
  "REDIR_JS_RELOAD_TOP","REDIR_JS_RELOAD_SELF","REDIR_JS_REDIRECT_TOP","REDIR_JS_REDIRECT_SELF","DEFAULT_OBJ_ENGINE","DEFAULT_OBJ_CALLBACK","BIF_VAR"]:
    m=re.search(r'pub const '+name+r': &str =\s*"((?:[^"\\]|\\.)*)";',src)
    out.append("(** constants.rs %d *)"%line_of(m.start()))
    out.append("Definition %s : bytes := B %s."%(name,lit(m.group(1))))
for name in ["DIV_FETCH_FORM","DIV_FETCH_NONE","DIV_FETCH_AUTO","DIV_FETCH_VISIBLE","DIV_FETCH_CLICK"]:
    m=re.search(r'pub const '+name+r': &str = r#"(.*?)"#;',src,re.S)
    out.append("(** constants.rs %d *)"%line_of(m.start()))
    out.append("Definition %s : bytes := B %s."%(name,lit(m.group(1))))
m=re.search(r'NEUTRAL_JS: String = r#"(.*?)"#\.replace\("\\n", ""\)\.replace\("  ", ""\)',src,re.S)
out.append("(** constants.rs %d *)"%line_of(m.start()))
out.append("Definition NEUTRAL_JS : bytes := B %s."%lit(m.group(1).replace("\n","").replace("  ","")))
codes=re.findall(r'm\.insert\("(\d+)", "([^"]*)"\);',src)
out.append("(** constants.rs %d-: the STATUS_CODES table *)"%line_of(src.index('STATUS_CODES')))
out.append("Definition STATUS_CODES : list (bytes * bytes) := [")
out.append(";\n".join("  (B %s, B %s)"%(lit(a),lit(b)) for a,b in codes)+"].")
dj=open('/repo/src/default_json.rs').read()
m=re.search(r'r#"(.*)"#',dj,re.S)
def cv(v,ind):
    sp="  "*ind
    if v is None: return "JNull"
    if v is True: return "JBool true"
    if v is False: return "JBool false"
    if isinstance(v,int): return "JNum (NPos %d)"%v
    if isinstance(v,str): return "JStr (B %s)"%lit(v)
    if isinstance(v,list): return "JArr ["+"; ".join(cv(x,ind+1) for x in v)+"]"
    if isinstance(v,dict): return "JObj ["+";".join("\n"+sp+"  (B %s, %s)"%(lit(k),cv(x,ind+1)) for k,x in v.items())+"]"
out.append("(** default_json.rs 1-114: the value serde_json reads from DEFAULT *)")
out.append("Definition DEFAULT_SCHEMA : json := "+cv(json.loads(m.group(1)),0)+".")
open('/verif/rocq/theories/ConstantsGen.v','w').write("\n".join(out)+"\n")
