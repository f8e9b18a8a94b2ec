(** Generated by tools/gen_constants.py from /repo/src/constants.rs and /repo/src/default_json.rs. *)

From Verif Require Import Bytes Json.
Local Open Scope list_scope.

(** constants.rs 183 *)
Definition BIF_SANITIZE_OPEN : bytes := B "&#123;:".
(** constants.rs 186 *)
Definition BIF_SANITIZE_CLOSE : bytes := B ":&#125;".
(** constants.rs 189 *)
Definition UNPRINTABLE : bytes := B "&#0;".
(** constants.rs 208 *)
Definition BACKSPACE : bytes := B "&#9224".
(** constants.rs 220 *)
Definition SNIPPETS_FILES : bytes := B "snippet".
(** constants.rs 339 *)
Definition REDIR_JS_RELOAD_TOP : bytes := B "<!DOCTYPE html><script>top.location.href=self.location.href.split('#')[0];</script>".
(** constants.rs 343 *)
Definition REDIR_JS_RELOAD_SELF : bytes := B "<!DOCTYPE html><script>self.location.href=self.location.href.split('#')[0]</script>".
(** constants.rs 348 *)
Definition REDIR_JS_REDIRECT_TOP : bytes := B "<!DOCTYPE html><script>top.location.href='{}';</script>".
(** constants.rs 352 *)
Definition REDIR_JS_REDIRECT_SELF : bytes := B "<!DOCTYPE html><script>self.location.href='{}';</script>".
(** constants.rs 525 *)
Definition DEFAULT_OBJ_ENGINE : bytes := B "python".
(** constants.rs 526 *)
Definition DEFAULT_OBJ_CALLBACK : bytes := B "main".
(** constants.rs 147 *)
Definition BIF_VAR : bytes := B "{:;".
(** constants.rs 491 *)
Definition DIV_FETCH_FORM : bytes := B "
<form id=""{id}"" name=""{name}"" class=""neutral-fetch-form {class}"" method=""POST"" action=""{endpoint}"" data-wrap=""{wrap}"">
    {body}
</form>
".
(** constants.rs 498 *)
Definition DIV_FETCH_NONE : bytes := B "
<div id=""{id}"" class=""neutral-fetch-none {class}"" data-url=""{endpoint}"" data-wrap=""{wrap}"">
    {body}
</div>
".
(** constants.rs 505 *)
Definition DIV_FETCH_AUTO : bytes := B "
<div id=""{id}"" class=""neutral-fetch-auto {class}"" data-url=""{endpoint}"" data-wrap=""{wrap}"">
    {body}
</div>
".
(** constants.rs 512 *)
Definition DIV_FETCH_VISIBLE : bytes := B "
<div id=""{id}"" class=""neutral-fetch-visible {class}"" data-url=""{endpoint}"" data-wrap=""{wrap}"">
    {body}
</div>
".
(** constants.rs 519 *)
Definition DIV_FETCH_CLICK : bytes := B "
<div id=""{id}"" class=""neutral-fetch-click {class}"" data-url=""{endpoint}"" data-wrap=""{wrap}"">
    {body}
</div>
".
(** constants.rs 356 *)
Definition NEUTRAL_JS : bytes := B "<script>{const d=document;let sl='...';let sd=250;let st=30000;let se=' Form ERROR! ';let sed=3500;""undefined""!=typeof neutral_submit_loading&&(sl=neutral_submit_loading);""undefined""!=typeof neutral_submit_delay&&(sd=neutral_submit_delay);""undefined""!=typeof neutral_submit_timeout&&(st=neutral_submit_timeout);""undefined""!=typeof neutral_submit_error&&(se=neutral_submit_error);""undefined""!=typeof neutral_submit_error_delay&&(sed=neutral_submit_error_delay);const o=new IntersectionObserver((e)=>{e.forEach(e=>{if(e.isIntersecting){o.unobserve(e.target);neutral_fetch(e.target,e.target.dataset.url,e.target.dataset.wrap);}});});function neutral_obs(){d.querySelectorAll('.neutral-fetch-visible').forEach((e)=>{e.classList.remove('neutral-fetch-visible');o.observe(e);});}function neutral_fetch(e,u,w){let h=e;if(w){h=d.getElementById(w)}fetch(u,{headers:{'requested-with-ajax':'fetch'}}).then(response=>response.text()).then(html=>{h.innerHTML=html;h.outerHTML=html;window.dispatchEvent(new CustomEvent('neutralFetchCompleted',{detail:{element:h,url:u}}));}).catch(error=>{h.innerHTML=se;window.dispatchEvent(new CustomEvent('neutralFetchError',{detail:{element:h,url:u}}));});}function neutral_fetch_form(f,u,w){const subs = f.querySelectorAll('[type=submit]');subs.forEach((e)=>{e.disabled=true;e.dataset['restsubs']=e.innerHTML;e.innerHTML=e.innerHTML + ' ' + sl;});let h=f;if(w){h = d.getElementById(w)}let dt=new FormData(f);let has_file=false;for(let i=0;i<f.elements.length;i++){value=f.elements[i].value;if(f.elements[i].name===""""){continue;}if(f.elements[i].type==""file""){has_file=true;continue;}if(f.elements[i].name.indexOf('[]')>=0){continue;}if(f.elements[i].type==""checkbox"" || f.elements[i].type==""radio""){if(!f.elements[i].checked){continue;}}dt.append(f.elements[i].name,value);}if(!has_file){dt=new URLSearchParams(new FormData(f))}setTimeout(()=>{fetch(u,{signal:AbortSignal.timeout(st),method:'POST',headers:{'requested-with-ajax':'fetch'},body:dt,}).then(response=>response.text()).then(html=>{h.innerHTML=html;h.outerHTML=html;window.dispatchEvent(new CustomEvent('neutralFetchCompleted',{detail:{element:h,url:u}}));}).catch(error=>{window.dispatchEvent(new CustomEvent('neutralFetchError',{detail:{element:h,url:u}}));subs.forEach((e)=>{e.disabled=true;e.innerHTML=se;});setTimeout(()=>{subs.forEach((e)=>{e.disabled=false;e.innerHTML=e.dataset['restsubs']});},sed);});},sd);}function neutral_fev(){d.querySelectorAll('.neutral-fetch-form').forEach((e)=>{e.classList.remove('neutral-fetch-form');function handleSubmit(ev){ev.preventDefault();neutral_fetch_form(e,e.getAttribute('action'),e.dataset.wrap);}e.addEventListener('submit',handleSubmit);});d.querySelectorAll('.neutral-fetch-auto').forEach((e)=>{e.classList.remove('neutral-fetch-auto');neutral_fetch(e,e.dataset.url,e.dataset.wrap);});d.querySelectorAll('.neutral-fetch-click').forEach((e)=>{e.classList.remove('neutral-fetch-click');function handleClick(){neutral_fetch(e,e.dataset.url,e.dataset.wrap);}e.addEventListener('click',handleClick);});neutral_obs();}d.addEventListener('DOMContentLoaded',()=>{neutral_fev();});window.addEventListener('neutralFetchCompleted',()=>{neutral_fev();});window.addEventListener('neutralFetchError',()=>{neutral_fev();});}</script>".
(** constants.rs 273-: the STATUS_CODES table *)
Definition STATUS_CODES : list (bytes * bytes) := [
  (B "100", B "Continue");
  (B "101", B "Switching Protocols");
  (B "103", B "Early Hints");
  (B "200", B "OK");
  (B "201", B "Created");
  (B "202", B "Accepted");
  (B "203", B "Non-Authoritative Information");
  (B "204", B "No Content");
  (B "205", B "Reset Content");
  (B "206", B "Partial Content");
  (B "208", B "Already Reported");
  (B "226", B "IM Used");
  (B "300", B "Multiple Choices");
  (B "301", B "Moved Permanently");
  (B "302", B "Found");
  (B "303", B "See Other");
  (B "304", B "Not Modified");
  (B "305", B "Use Proxy");
  (B "306", B "Switch Proxy");
  (B "307", B "Temporary Redirect");
  (B "308", B "Permanent Redirect");
  (B "400", B "Bad Request");
  (B "401", B "Unauthorized");
  (B "402", B "Payment Required");
  (B "403", B "Forbidden");
  (B "404", B "Not Found");
  (B "405", B "Method Not Allowed");
  (B "406", B "Not Acceptable");
  (B "407", B "Proxy Authentication Required");
  (B "408", B "Request Time-out");
  (B "409", B "Conflict");
  (B "410", B "Gone");
  (B "411", B "Length Required");
  (B "412", B "Precondition Failed");
  (B "413", B "Payload Too Large");
  (B "414", B "URI Too Long");
  (B "415", B "Unsupported Media Type");
  (B "416", B "Range Not Satisfiable");
  (B "417", B "Expectation Failed");
  (B "421", B "Misdirected Request");
  (B "422", B "Unprocessable Entity");
  (B "423", B "Locked");
  (B "424", B "Failed Dependency");
  (B "425", B "Too Early");
  (B "426", B "Upgrade Required");
  (B "428", B "Precondition Required");
  (B "429", B "Too Many Requests");
  (B "431", B "Request Header Fields Too Large");
  (B "451", B "Unavailable For Legal Reasons");
  (B "500", B "Internal Server Error");
  (B "501", B "Not Implemented");
  (B "502", B "Bad Gateway");
  (B "503", B "Service Unavailable");
  (B "504", B "Gateway Time-out");
  (B "505", B "HTTP Version Not Supported");
  (B "506", B "Variant Also Negotiates (Experimental)");
  (B "510", B "Not Extended");
  (B "511", B "Network Authentication Required")].
(** default_json.rs 1-114: the value serde_json reads from DEFAULT *)
Definition DEFAULT_SCHEMA : json := JObj [
  (B "_comment_:License", JStr (B "License in the terms described in the LICENSE file."));
  (B "version", JStr (B "0.0.0"));
  (B "config", JObj [
    (B "infinite_loop_max_bifs", JNum (NPos 555000));
    (B "_comment_:comments", JStr (B "keep|remove, default or empty keep"));
    (B "comments", JStr (B "remove"));
    (B "_comment_:errors", JStr (B "show|hide, default or empty show"));
    (B "error", JObj [
      (B "show", JBool true)]);
    (B "app", JObj []);
    (B "obj_python_venv", JStr (B ""));
    (B "obj_php_venv", JStr (B ""));
    (B "obj_php_fpm", JStr (B "unix:/run/php/php-fpm.sock"));
    (B "cache_prefix", JStr (B "neutral-cache"));
    (B "cache_dir", JStr (B ""));
    (B "cache_on_post", JBool false);
    (B "cache_on_get", JBool true);
    (B "cache_on_cookies", JBool true);
    (B "cache_disable", JBool false);
    (B "filter_all", JBool false);
    (B "disable_js", JBool false);
    (B "debug_expire", JNum (NPos 3600));
    (B "debug_file", JStr (B ""))]);
  (B "data", JObj [
    (B "CONTEXT", JObj [
      (B "CONFIG", JObj []);
      (B "ROUTE", JStr (B ""));
      (B "HOST", JStr (B ""));
      (B "GET", JObj []);
      (B "POST", JObj []);
      (B "HEADERS", JObj []);
      (B "REQUEST", JObj []);
      (B "FILES", JObj []);
      (B "COOKIES", JObj []);
      (B "SESSION", JObj []);
      (B "ENV", JObj [])]);
    (B "__hello-nts", JStr (B "Hello nts"));
    (B "__ref-hello-nts", JStr (B "__hello-nts"));
    (B "__test-nts", JStr (B "nts"));
    (B "__test-arr_nts", JArr [JStr (B "one"); JStr (B "two"); JStr (B "three")]);
    (B "__test-obj_nts", JObj [
      (B "level1", JStr (B "Ok"));
      (B "level1_arr", JObj [
        (B "level2", JStr (B "Ok"));
        (B "level2_obj", JObj [
          (B "level3", JStr (B "Ok"));
          (B "level3_arr", JArr [JStr (B "one"); JStr (B "two"); JStr (B "three")])])])])]);
  (B "inherit", JObj [
    (B "locale", JObj [
      (B "current", JStr (B "en"));
      (B "trans", JObj [
        (B "en", JObj [
          (B "Hello nts", JStr (B "Hello"));
          (B "ref:greeting-nts", JStr (B "Hello"))]);
        (B "en-US", JObj [
          (B "Hello nts", JStr (B "Hello"));
          (B "ref:greeting-nts", JStr (B "Hello"))]);
        (B "en-UK", JObj [
          (B "Hello nts", JStr (B "Hello"));
          (B "ref:greeting-nts", JStr (B "Hello"))]);
        (B "es", JObj [
          (B "Hello nts", JStr (B "Hola"));
          (B "ref:greeting-nts", JStr (B "Hola"))]);
        (B "es-ES", JObj [
          (B "Hello nts", JStr (B "Hola"));
          (B "ref:greeting-nts", JStr (B "Hola"))]);
        (B "de", JObj [
          (B "Hello nts", JStr (B "Hallo"));
          (B "ref:greeting-nts", JStr (B "Hallo"))]);
        (B "fr", JObj [
          (B "Hello nts", JStr (B "Bonjour"));
          (B "ref:greeting-nts", JStr (B "Bonjour"))]);
        (B "el", JObj [
          (B "Hello nts", JStr (B "Γεια σας"));
          (B "ref:greeting-nts", JStr (B "Γεια σας"))])])]);
    (B "snippets", JObj [
      (B "__hello-nts", JStr (B "<div>{:trans; ref:greeting-nts :}</div>"))]);
    (B "snippets_set_dir", JObj []);
    (B "declare", JObj [
      (B "any", JStr (B "*"));
      (B "traversal", JStr (B "/* \\* *\.\.*"))]);
    (B "params", JObj [])]);
  (B "__moveto", JObj []);
  (B "__error", JArr [])].
