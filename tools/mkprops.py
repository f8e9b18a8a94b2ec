#!/usr/bin/env python3
# Generates /verif/properties.jsonl (one property per line).
import json
P=[]
def p(id,title,statement,quant,why,anchors):
    P.append(dict(id=id,title=title,statement=statement,quantifier=quant,why_tests_cant=why,anchors=anchors))
ALLSTR="all strings (no bound on length)"
p("C01","Wildcard matching means what its documentation says",
"A text matches an allow/declare pattern exactly when it can be split along the pattern: an ordinary character stands for itself, '\\\\c' for the character c, '?' for any one character, '.' for zero or one, '*' for any number, and '~' only for the empty remaining text.",
"all texts and all patterns (UTF-8 strings of any length)","Matching backtracks; the set of text/pattern pairs is infinite and the interesting ones mix '*', '.', escapes and '~'.",
["src/utils.rs: wildcard_match","src/bif/parse_bif_allow.rs: parse_bif_allow"])
p("C02","A declared word without wildcards matches only itself",
"If a declared word contains none of the characters . ? * ~ \\ then it matches a text exactly when the text is equal to the word.",
"all words without special characters, all texts","Tests only try a few words.",["src/utils.rs: wildcard_match"])
p("C03","The built-in 'traversal' declaration catches every traversal path",
"With the word list shipped in the default schema for 'traversal', a path is matched whenever it starts with '/' or with a backslash or contains '..' anywhere, and no other path is matched; so {:!allow; traversal >> path :} never outputs such a path.",
"all candidate paths","Path traversal filters must hold for every attacker-chosen path.",
["src/default_json.rs: DEFAULT inherit.declare.traversal","src/utils.rs: wildcard_match","src/bif/parse_bif_allow.rs: parse_bif_allow"])
p("C04","allow only lets declared values through",
"The bif allow outputs its (rendered) content only if some whitespace-separated word of the named declaration matches that content, otherwise it outputs nothing; with '!' it outputs the content only if no word matches. With the replace flag it outputs only text of the declared word.",
"all schemas, declarations, contents and template contexts","The whitelisting guarantee is over all contents.",
["src/bif/parse_bif_allow.rs: parse_bif_allow","src/utils.rs: wildcard_match"])
p("C05","HTML escaping is reversible",
"Unescaping an escaped string with the same brace setting gives back the original string.",ALLSTR+", both brace settings","Round trips over all strings, including ones that already contain entities.",
["src/utils.rs: escape_chars, unescape_chars"])
p("C06","Escaped text contains no active characters",
"The result of escaping contains none of < > \" ' / (and no { or } when braces are escaped), and every & in it starts one of the eight entities the escaper writes.",ALLSTR+", both brace settings","XSS safety is a claim about every input.",
["src/utils.rs: escape_chars"])
p("C07","Filtering twice is the same as filtering once",
"The value filter applied to CONTEXT (and the & modifier's unescape-then-escape) is idempotent: applying it again changes nothing, so there is no double encoding.",
"all strings and all JSON values of any depth","Quantifies over all nested values.",["src/utils.rs: filter_value, filter_value_keys, escape_chars, unescape_chars","src/bif/parse_bif_var.rs"])
p("C08","Everything under data.CONTEXT is filtered before a template sees it",
"When rendering starts, every string value under data.CONTEXT is free of < > \" ' / { } and every object key under it too, whatever the caller put there.",
"all user schemas","User-controlled data of any shape and depth.",["src/template.rs: init_render, init_render_once","src/utils.rs: filter_value, filter_value_keys"])
p("C09","Filtering keys can lose entries only when two keys become equal",
"Filtering the keys of an object keeps every value whose filtered key is unique; when two keys become equal the later value wins (documented here because data is then lost).",
"all JSON objects","Collision behaviour depends on arbitrary pairs of keys.",["src/utils.rs: filter_value_keys"])
p("C10","Variables are never evaluated",
"With the default configuration (cache enabled), the text produced by {:;name:} contains neither '{:' nor ':}' whatever the value of the variable is and whichever of the modifiers & and ! is used, so that a value is never re-evaluated as template code. (Exception, see the refuted theorem: names below CONTEXT with & when a loop has rebound CONTEXT.)",
"all schemas, all variable names, all variable values","The injection-safety claim is over all data values.",["src/bif/parse_bif_var.rs: parse_bif_var","src/constants.rs: BIF_SANITIZE_OPEN, BIF_SANITIZE_CLOSE"])
p("C11","Code with the safe flag is inert",
"The output of {:code; {:flg; safe :} >> text :} contains no '{:' and no ':}' and no < > \" ' /, whatever the text is.",
ALLSTR,"Safety claim over all contents.",["src/bif/parse_bif_code.rs: parse_bif_code"])
p("C12","Merging schemas: what the second schema says wins, the rest is kept",
"After merging b into a: a path that leads to a non-object value in b has that value in the result; a path that b does not touch keeps its value from a; keys keep the order of a with new keys appended in the order of b.",
"all pairs of JSON objects of any depth, all paths","Recursive structure, all shapes.",["src/utils.rs: merge_schema, merge_schema_owned"])
p("C13","The borrowed and the owned merge agree, and merging twice changes nothing",
"merge_schema and merge_schema_owned compute the same value, and merging the same b a second time leaves the value unchanged.",
"all pairs of JSON values","All shapes.",["src/utils.rs: merge_schema, merge_schema_owned"])
p("C14","update_schema always stamps the engine version",
"After a successful update the top-level version is the crate version, whatever version the merged schema carried; all other top-level keys except data are those of the merge.",
"all pairs of JSON values","All shapes.",["src/utils.rs: update_schema, update_schema_owned"])
p("C15","Header spelling variants agree after an update",
"If one of the three spellings of requested-with-ajax is present in data.CONTEXT.HEADERS after the merge, then after the update all three are present and have the same value.",
"all pairs of JSON values","All combinations of present variants.",["src/utils.rs: update_schema, update_schema_owned"])
p("C16","Block extraction finds exactly the outermost bifs of a well-formed template",
"For the text of any well-formed template (literal text, comments and bifs, nested to any depth), extraction succeeds and returns exactly the spans of the outermost bifs and comments, in order.",
"all well-formed templates of any size and nesting depth","Nesting depth and length unbounded.",["src/utils.rs: extract_blocks"])
p("C17","Extracted blocks are ordered, disjoint and delimited",
"For any source, if extraction succeeds then the spans are in bounds, increasing and disjoint, each starts with '{:' and ends with ':}', and no ':}' is left in the text between them; if it fails, the reported position is that of a ':}'.",
"all sources","All strings, including malformed ones.",["src/utils.rs: extract_blocks"])
p("C18","Unbalanced templates give status 500 and no output",
"If a ':}' is left over outside every block, the block is rendered as the empty string with status 500, text 'Internal Server Error' and the position in the status parameter.",
"all sources","All malformed sources.",["src/block_parser.rs: parse, handle_unmatched_block"])
p("C19","The params/code separator is the first '>>' outside nested bifs",
"The split position is the first '>>' that is not inside a '{:' ... ':}' pair of the source; text inside nested bifs never splits the outer bif.",
"all well-formed bif sources","Nesting unbounded.",["src/utils.rs: get_code_position","src/bif/mod.rs: extract_params_code"])
p("C20","Variable paths resolve step by step",
"A name a->b->c resolves to the value reached by following object keys (array indices when the current value is an array); '/' and '->' are interchangeable separators; a missing step gives an undefined value, which renders as the empty string.",
"all JSON values, all paths","All paths and shapes.",["src/utils.rs: resolve_pointer, get_from_key"])
p("C21","Truthiness tables of bool, filled, defined and array",
"bool/filled/defined/array tests give exactly the documented answer for each kind of value; filled implies defined, array implies defined, defined fails exactly on missing or null; bool of a non-empty non-numeric string other than 'false' is true.",
"all JSON values and names","All values, including every string.",["src/utils.rs: is_bool_key, is_empty_key, is_defined_key, is_array_key"])
p("C22","'!' is the exact complement for the conditional bifs",
"For bool, filled, defined, array, same and contains, with the same source and context exactly one of the plain and the '!' form renders its code, the other renders nothing.",
"all parameters, code and contexts","All states and conditions.",["src/bif/parse_bif_bool.rs","src/bif/parse_bif_filled.rs","src/bif/parse_bif_defined.rs","src/bif/parse_bif_array.rs","src/bif/parse_bif_same.rs","src/bif/parse_bif_contains.rs"])
p("C23","A condition that fails evaluates none of its code",
"When the condition of bool/filled/defined/array/same/contains/else/eval does not hold the code part has no effect at all: no variable, snippet, status, error, file access or bif count changes.",
"all states and code","Absence of effects over every code.",["src/bif/parse_bif_*.rs conditional handlers"])
p("C24","else renders exactly when the previous bif of the same level rendered nothing",
"{:else; c :} renders c when the previous bif in the same block wrote nothing at all (before white space is trimmed) and renders nothing when it wrote something; {:!else;} the converse.",
"all preceding bifs and contexts","All histories of a block.",["src/bif/parse_bif_else.rs","src/bif/mod.rs: parse (last_bif_out)"])
p("C25","coalesce yields the first non-empty alternative and evaluates no later one",
"In {:coalesce; alternatives :} alternatives are evaluated in order until one yields output; later ones are not evaluated at all.",
"all lists of alternatives, any length","All lists; absence of effects of the later ones.",["src/bif/parse_bif_coalesce.rs","src/block_parser.rs: parse_with_blocks"])
p("C26","Every parse terminates within the bif budget",
"Parsing any template in any context terminates: either with a result or, when more than infinite_loop_max_bifs bifs have been created, with the 'Infinite loop?' panic; never more than that number of bifs are started.",
"all templates, contexts, file systems and external programs","Divergence can only be excluded by a proof.",["src/bif/mod.rs: Bif::new","src/block_parser.rs","src/macros.rs"])
p("C27","When a render ends",
"A render of a template with bifs ends exactly if no pass of its cache loop leaves a text with a cache bif that is never closed; in that case it never ends. In particular render does not terminate for every template ({:!cache; hello), see the refuted theorem.",
"all templates, all environments","Non-termination cannot be observed by a test.",["src/template.rs: render, render_once"])
p("C28","Local definitions do not leak out of a block",
"Parameters, declarations, translations and local data defined while evaluating the content of a bif without the scope modifier are not visible to the bifs that follow it in the parent block.",
"all contents, all contexts","All contents, any nesting.",["src/block_parser.rs: create_block_schema, update_indir, Drop","src/macros.rs: new_child_parse"])
p("C29","Local definitions are inherited by nested blocks",
"What is defined in a block before a nested bif is visible inside that bif's content, until redefined there.",
"all contexts","All histories.",["src/block_parser.rs: create_block_schema","src/macros.rs"])
p("C30","The scope modifier '+' exports definitions to the current level",
"With '+', definitions made in the content of the bif are visible to the following bifs of the current level.",
"all contents","All contents.",["src/macros.rs: new_child_parse","src/block_parser.rs: update_indir"])
p("C31","A template cannot change the configuration, the inherit section or the version",
"No template can change schema.config, schema.inherit or any other top-level key except data, __moveto and __error; data stays an object.",
"all templates, contexts, file systems and external programs","Over all templates.",["src/bif/*.rs","src/shared.rs"])
p("C32","Errors are append-only and has_error tells whether there are any",
"During a render the error list only grows, no bif removes or changes an entry, and has_error is true exactly when the list is non-empty.",
"all templates","All executions.",["src/bif/mod.rs: parse","src/template.rs: has_error, get_error"])
p("C33","An error in one bif does not stop the render",
"A bif that fails contributes at most its own output; the text and the bifs after it are still processed.",
"all templates and failing bifs","All positions and failures.",["src/bif/mod.rs: parse","src/block_parser.rs: parse_with_blocks"])
p("C34","each visits every element once, in order, and restores the loop variables",
"each renders its code once per element in order with the key and the value bound in data, concatenates the results, and afterwards the two variables have their previous value (null if they were undefined).",
"all arrays and objects of any length, all bodies","Unbounded collections and arbitrary bodies.",["src/bif/parse_bif_each.rs"])
p("C35","for counts through its range inclusively in the right direction",
"for renders its code once for every integer between the bounds, both included, ascending if from<=to and descending otherwise, with the variable bound to the decimal text.",
"all 32-bit bounds, all bodies","2^64 pairs of bounds.",["src/bif/parse_bif_for.rs"])
p("C36","What for leaves in its variable",
"After the loop the variable is a string: the text that the previous value had. So a string is restored, and only a string: a number or boolean comes back as its text, an array, object, null or undefined variable as an empty string. (That every value is restored is false, see the refuted theorem.)",
"all previous values, all loop bodies, all states","All values.",["src/bif/parse_bif_for.rs"])
p("C37","Dynamic variable names need allow",
"{:;{:;ref:}:} and any variable name that is itself a bare variable bif is rejected: error 'insecure varname', empty output, and the inner variable is not evaluated.",
"all inner names, all contexts","All names and contexts.",["src/bif/parse_bif_var.rs","src/bif/mod.rs: contains_allow"])
p("C38","Dynamic file names need allow",
"include, data and locale with a file name that is a bare variable bif are rejected with an error and the file system is not touched at all.",
"all inner names, contexts, file systems","Absence of file accesses over all states.",["src/bif/parse_bif_include.rs","src/bif/parse_bif_data.rs","src/bif/parse_bif_locale.rs"])
p("C39","!include includes a file at most once",
"{:!include; f :} does nothing when the canonical path has already been included at this level or an enclosing one; a plain include records the path and always includes.",
"all file systems and histories","All histories of includes.",["src/bif/parse_bif_include.rs"])
p("C40","exit and redirect decide the final output",
"After a render whose status code is a 4xx/5xx code the output is exactly 'code text'; for 301, 302, 303, 307, 308 it is 'code text', a newline and the target; otherwise a JavaScript redirection, if set, replaces the output; otherwise the rendered content is returned.",
"all final states","All codes and contents.",["src/template.rs: set_status_code"])
p("C41","redirect accepts only its listed types",
"redirect changes the status only for 301/302/303/307/308 with a non-empty target or for the js: types; any other type is an error that leaves status and exit flag unchanged (unless the target contains both js:reload texts, see the refuted theorem).",
"all types and targets","All strings.",["src/bif/parse_bif_redirect.rs"])
p("C42","After exit no further bif runs",
"While the exit flag is raised no bif of any block is started, and the rest of every enclosing block is dropped. (That the flag is never lowered again is false: {:!exit; around an exit lowers it, see the refuted theorem.)",
"all templates","All continuations.",["src/block_parser.rs: parse_with_blocks","src/bif/parse_bif_exit.rs"])
p("C43","moveto only inserts",
"Moving content inserts each moved text after the opening tag or before the closing tag it names, once per distinct content; nothing of the original output is lost; unknown tags are ignored.",
"all outputs and moved contents","All outputs.",["src/bif/parse_bif_moveto.rs","src/template.rs: set_moveto","src/utils.rs: find_tag_position"])
p("C44","render and render_once agree and render leaves the schema alone",
"render and render_once from the same template state give the same output, status and errors; render does not change the schema, so merging and rendering again behaves as if the first render had not happened (source text apart).",
"all templates, schemas, environments","All templates and schemas.",["src/template.rs: render, render_once, init_render, init_render_once"])
p("C45","A template without bifs is returned trimmed",
"If the source contains no '{:' the output is the source with surrounding whitespace removed.",
"all sources and schemas","All strings.",["src/template.rs: render, render_once"])
p("C46","Literal text is copied verbatim",
"Outside bifs and comments every byte of the source appears in the output in order; comments contribute nothing.",
"all templates","All texts around any bifs.",["src/block_parser.rs: parse_with_blocks"])
p("C47","Cache hit returns what was stored, miss stores what was rendered",
"When a fresh cache file exists its content is the output and the code is not evaluated; otherwise the code is rendered, stored under the key, and output.",
"all cache contents, codes and environments","All histories of cache writes and clocks.",["src/bif/parse_bif_cache.rs"])
p("C48","Cache entries are never served after they expire",
"An existing cache file is used only if the current time does not exceed its modification time plus the expiry. (Of what is shown this holds for the entry as a whole: a nested cache that was fresh when the outer one was stored is shown until the outer entry expires, even if its own seconds are over.)",
"all times and expiry values","All clock values.",["src/bif/parse_bif_cache.rs: cache_file_expires"])
p("C49","Requests with different context do not share cache entries",
"Two cache evaluations that differ in exactly one of the identifier, language, expiry, host, route, GET, POST, COOKIES and code have different keys, hence different cache files unless SHA-256 collides. (For several differences at once this is false, see the refuted theorem.)",
"all pairs of requests","All pairs.",["src/bif/parse_bif_cache.rs: parse_bif_cache"])
p("C50","No cache when disabled or for requests excluded by the configuration",
"With cache_disable, or with POST/GET/COOKIES data present and the corresponding cache_on_ option off, the cache bif neither reads nor writes any file and just renders its code.",
"all codes and environments","Absence of effects.",["src/bif/parse_bif_cache.rs"])
p("C51","rand stays in its range",
"{:rand; a..b :} yields an integer between a and b inclusive; if a > b it is an error; without range it has nine digits.",
"all bounds, all random sources","All random outcomes.",["src/bif/parse_bif_rand.rs"])
p("C52","trans falls back to the text itself",
"trans outputs the translation for the current language if there is a non-empty one, otherwise the text (nothing with '!').",
"all texts and locales","All locales.",["src/bif/parse_bif_trans.rs","src/bif/mod.rs: get_trans"])
p("C53","Definitions are accepted only where allowed",
"param can be set only directly in a code block, declare only in a file whose name contains 'snippet', snippet only there or inside a snippet; elsewhere an error is recorded and nothing is defined.",
"all contexts","All contexts.",["src/bif/parse_bif_param.rs","src/bif/parse_bif_declare.rs","src/bif/parse_bif_snippet.rs"])
p("C54","A disallowed modifier is always an error without effects",
"A bif used with a modifier it does not accept records an error, outputs nothing and evaluates none of its content.",
"all bifs, contents and contexts","All bif/modifier combinations and contents.",["src/bif/*.rs"])
p("C55","Comment removal deletes exactly the comments",
"For any text made of literal text and well-nested comments, removing the comments gives exactly the literal text.",
"all well-formed texts, any nesting","Nesting unbounded.",["src/utils.rs: remove_comments"])
p("C56","What comment removal leaves, and exactly when it fails",
"remove_comments removes each comment up to the '*:}' at which as many comments are closed as were opened, and leaves the rest in place. A comment that is never closed takes the text before it (back to the previous comment) with it and leaves what follows its last ':'. It fails (panics) exactly when the source ends in ':' and some '{:*' in it is never closed.",
"all sources","All strings.",["src/utils.rs: remove_comments"])
p("C57","The engine only panics for the documented reasons",
"For a schema with the default shape, rendering can abort only because of the bif limit, a non-ASCII bif name, an unclosed comment, a non-string obj template, an i32 counter overflow, a date format that chrono rejects, an expiry time beyond u64 or a file that vanishes between two system calls.",
"all templates, all schemas of the default shape, all environments","Absence of every other panic over all executions.",["src/bif/*.rs","src/template.rs","src/utils.rs"])
p("C58","join lists every element once, separated",
"join concatenates the element texts (or keys) in order with the separator between consecutive ones.",
"all arrays and objects","All lengths.",["src/bif/parse_bif_join.rs"])
p("C59","replace and contains use plain substring semantics",
"contains holds exactly if the needle occurs in the haystack; replace replaces the non-overlapping occurrences from left to right and leaves the text between them unchanged.",
"all texts","All strings.",["src/bif/parse_bif_replace.rs","src/bif/parse_bif_contains.rs"])
p("C60","same holds exactly for equal texts",
"same renders its code exactly if its two arguments are equal.",
"all arguments","All strings.",["src/bif/parse_bif_same.rs"])
p("C61","FastCGI records are well formed and decodable",
"Records written to PHP-FPM have the declared lengths, are padded to a multiple of eight and can be decoded back to the content; oversized content is refused.",
"all contents","All lengths including boundaries.",["src/bif/exec_php.rs: write_record"])
p("C62","FastCGI name-value pairs decode to what was encoded",
"Encoding a list of parameters and decoding it by the FastCGI rules gives the same list.",
"all lists of names and values","Boundaries 127/128 and all lengths.",["src/bif/exec_php.rs: write_length, build params"])
p("C63","A response is read independently of how the stream is split into records",
"Reading a FastCGI response returns the concatenation of the stdout contents up to the end record, for any split into records and padding.",
"all splits","All fragmentations.",["src/bif/exec_php.rs: read_fastcgi_response"])
p("C64","neutral and noparse leave text alone",
"{:neutral; ... :} outputs its own source unchanged; code with noparse outputs its content unchanged without evaluating it.",
"all contents","All contents.",["src/bif/parse_bif_neutral.rs","src/bif/parse_bif_code.rs"])
p("C65","eval runs its code only for non-empty results and restores __eval__",
"eval renders its code exactly if its parameter part renders to non-empty text, with that text available as __eval__, and then restores the previous text of __eval__.",
"all params and codes","All contents.",["src/bif/parse_bif_eval.rs"])
p("C66","!cache delays evaluation to every request",
"{:!cache; code :} inside a cache block is stored as it is written, to be evaluated each time the page is served; outside a cache block it is evaluated in place.",
"all codes, states and environments","All codes and all places.",["src/bif/parse_bif_cache.rs: parse_bif_cache","src/template.rs: render"])
p("C67","A render only touches the files it may touch",
"During a render a file is read or resolved only after it was found to exist, directories are made and files created and written only below the configured cache directory and only if the cache is not disabled, and external programs are run only for scripts (and virtual environments) that were found to exist, by their canonical path.",
"all templates, schemas, environments and whole renders, including files changing between two steps","All templates and all behaviours of the file system.",["src/template.rs: render, render_once","src/bif/parse_bif_include.rs","src/bif/parse_bif_data.rs","src/bif/parse_bif_locale.rs","src/bif/parse_bif_cache.rs","src/bif/parse_bif_obj.rs","src/bif/parse_bif_debug.rs"])
p("C68","A PHP script's answer reaches the template exactly, through a bridge beside the script",
"Calling a PHP script sends one FastCGI POST request to the configured endpoint (unix:PATH, tcp://HOST:PORT or HOST:PORT), addressed to the bridge script in the directory of the called script, whose body carries the script's path, the callback and its parameters, the schema only if it was asked for, the schema data and the virtual environment. However the peer fragments its answer, the result is the JSON value in the HTTP body of its output stream; anything but white space on its error stream, an answer that is not JSON, and an error reported by the bridge become an error. The bridge is the only file written, with a fixed content, and an existing file is never overwritten. A malformed endpoint, a failed connection or a payload over 65535 bytes is an error and nothing is sent.",
"every script path, arguments, endpoint text, file system state, peer behaviour and fragmentation of the answer",
"the answers of a peer and the ways to cut them into records are unbounded; tests exercise a few",
["src/bif/exec_php.rs: PhpExecutor::exec_php","src/bif/exec_php.rs: bridge_path_for","src/bif/exec_php.rs: parse_endpoint","src/bif/exec_php.rs: extract_http_body"])

p("C69","data merges its values into the data of the block, or nothing",
"{:data; file :} and {:data; {json} :} merge the member \"data\" of the JSON text into the local data of the current block: every leaf it mentions gets the new value, every other keeps its own; no other block, no inherited data, translation, snippet or parameter changes, and nothing is output. Text that is not JSON is an error and defines nothing; a missing file does nothing unless it is required; with ! a file is read once per block; unknown flags are an error.",
"all files, JSON values, schemas and places","All values and all earlier local data.",["src/bif/parse_bif_data.rs: parse_bif_data"])
p("C70","locale merges its translations into those of the block",
"{:locale; file :} and inline translations merge the JSON object into the translations of the current block: afterwards trans finds the new translation of a text where there is one and the earlier one elsewhere. Text that is not JSON is an error and defines nothing; a missing file does nothing unless it is required; with ! a file is read once.",
"all files, JSON values, schemas and places","All translations and all earlier ones.",["src/bif/parse_bif_locale.rs: parse_bif_locale"])
p("C71","A parameter reads back what was set",
"{:param; name :} outputs the text that the innermost enclosing block set for the name, and an empty text if none did.",
"all names without separators, all values and nestings","All names and values.",["src/bif/parse_bif_param.rs: parse_bif_param"])
p("C72","Calling a snippet evaluates its content in place",
"{:snippet; name :} (or snip) outputs the evaluation of the content stored under that name, in the scope of the caller and with the directory of the snippet's file as '#'; an undefined snippet outputs nothing.",
"all names without separators, all contents and callers","All contents and callers.",["src/bif/parse_bif_snippet.rs: parse_bif_snippet"])
p("C73","exit sets the status and stops; moveto registers its content once",
"exit sets the status code (200 if none is given), its text and its parameter and stops the render (with ! it lets the render go on); moveto registers its content under its tag, the same content registered twice is moved once, and it outputs nothing.",
"all codes, tags and contents","All codes and contents.",["src/bif/parse_bif_exit.rs: parse_bif_exit","src/bif/parse_bif_moveto.rs: parse_bif_moveto"])
p("C74","count counts",
"Setting a counter to a number of 32 bits stores it; reading a counter outputs its number and stores the next one; a text that is not such a number is an error and leaves the counter alone; the only panic is the overflow of the largest number.",
"all counters and numbers","All numbers, including the boundaries.",["src/bif/parse_bif_count.rs: parse_bif_count"])
p("C75","sum, lang, hash, date and flg compute what they say",
"sum outputs the sum of its two numbers and is an error if one is not a number; lang outputs the language of the request; hash outputs the digest of its evaluated text, of random bytes if it is empty; date outputs the time of the single moment it reads the clock; flg leaves its words as the flags of the enclosing parameters.",
"all arguments, states and environments","All arguments and states.",["src/bif/parse_bif_sum.rs","src/bif/parse_bif_lang.rs","src/bif/parse_bif_hash.rs","src/bif/parse_bif_date.rs","src/bif/parse_bif_flg.rs"])
p("C76","fetch outputs the frame of its event and the script once",
"fetch outputs the frame of its event (auto unless it is form, none, visible or click) with id, name, wrapper, class, body and url filled in in that order; the client script is appended by the first fetch of a render only, and never if JavaScript is disabled.",
"all arguments, bodies and states","All arguments and all earlier fetches.",["src/bif/parse_bif_fetch.rs: parse_bif_fetch"])

p("C77","debug reveals nothing unless its file opens it",
"While the configured debug file does not exist, is not a file or is older than debug_expire seconds, {:debug; name :} outputs nothing and reports a fixed error, whatever its name; open, it outputs the value of the name in the schema (or, with local::, in the data of the block) as JSON, filtered with &.",
"all names, schemas, file ages and environments","All ages including the boundary, and all names.",["src/bif/parse_bif_debug.rs: parse_bif_debug","src/bif/parse_bif_debug.rs: debug_enable"])
p("C78","obj calls its script once with what the description says and evaluates the answer",
"obj reads its description in place or from a file, evaluates the texts of file, template, venv, schema_data, fpm and (at any depth) params, calls the script at its canonical path exactly once with those parameters, the callback (main), the schema only if \"schema\" is true, the named data only if schema_data is a text, and then evaluates the answer as data, the template and the code, in this order. A missing or malformed description, an unknown engine, a missing script or virtual environment and a failing script are errors: nothing is output, and in all but the last case nothing is called.",
"all descriptions, schemas, environments and script answers","All descriptions and all answers.",["src/bif/parse_bif_obj.rs: parse_bif_obj","src/bif/parse_bif_obj.rs: parse_obj_values"])

p("C79","Numbers in texts follow one grammar",
"Wherever a text is used as a number, it is one exactly if it follows the grammar: an array index or an expiry is an optional + and decimal digits up to 2^64-1; a counter or a bound is an optional sign and decimal digits within 32 bits; a truth value or a summand is an optional sign, digits with an optional point, an optional exponent, or inf, infinity or nan in any case, and it counts as positive exactly if its value does not round to zero, is not negative and not nan. White space is not skipped. A text is at most one number, and every number written by the library is read back as itself.",
"all texts and numbers","All texts.",["src/utils.rs: is_bool_key","src/utils.rs: get_from_key","src/bif/parse_bif_for.rs: parse_bif_for","src/bif/parse_bif_count.rs: set_count","src/bif/parse_bif_sum.rs: parse_bif_sum","src/bif/parse_bif_rand.rs: code"])

p("C80","What was stored is served until it expires",
"When the files live on a file system (what is written is found again, the clock does not run backwards) and a cache entry has been stored, every later evaluation of the same entry within the expiry time outputs exactly what was stored and evaluates nothing, however many other interactions, renders or other entries come between, as long as nothing writes that file and no script runs.",
"all histories of interactions, file contents, clocks, entries","A test runs one history; the claim is about every interleaving of other renders and file operations.",["src/bif/parse_bif_cache.rs: get_cache","src/bif/parse_bif_cache.rs: set_cache"])
p("C81","A crash while an entry is stored",
"If the process stops at any point of a render without scripts, every file has its old content, is empty, or has a beginning of something the render was writing to it. A process started afterwards serves, until the entry expires, exactly what was left. That this equals what an undisturbed process outputs is false: the entry is created first and written afterwards, so a crash between leaves an empty or cut entry that is served as if it were complete.",
"all crash points, also inside a write, and all histories before and after","Tests do not crash between two system calls.",["src/bif/parse_bif_cache.rs: set_cache","src/bif/parse_bif_cache.rs: get_cache"])

p("C82","A Python script sees the schema of its own call only",
"Whatever scripts were called before in the process, and however those calls ended, a call runs at most one function, with exactly the parameters of this call, and the function sees the schema and the schema data exactly if this call hands them over, with the values of this call. If no function is run the call is an error. Otherwise the result is what the function gave back: the JSON value of the text that json.dumps writes for the object it returned; an exception, an object without a JSON text and a text that is not JSON (NaN) are errors.",
"all histories of the process, scripts, parameters, schemas","Depends on what every earlier call left in the interpreter, which a test starts afresh.",["src/bif/exec_python.rs: execute_python_callback","src/bif/exec_python.rs: prepare_python_params","src/bif/exec_python.rs: convert_python_result_to_json"])
p("C83","The script that a template names is the one that runs",
"Each call of a Python script runs the function of the file that the template names. This is false of the code: modules are found by the bare file name, along all directories used so far, and are kept for the life of the process, so of two scripts with the same base name in two directories only the first one ever runs. It holds for every life of a process in which no directory searched has another file of the same name and scripts do not tamper with the interpreter.",
"all lives of a process: any number of calls of any scripts","The wrong script runs only after another one was called in the same process; tests call one script per process.",["src/bif/exec_python.rs: setup_python_path","src/bif/exec_python.rs: extract_module_name","src/bif/exec_python.rs: execute_python_callback"])
p("C84","The virtual environment and the search path of Python scripts",
"A venv that does not exist is an error and nothing else happens. The venv of the first call of a process determines the environment variables with which the interpreter is started; the venv of every later call changes nothing a script can observe. Every call adds its directory to the search path, which never shrinks. Every failure of a script is reported with the name of its callback.",
"all histories of the process, venvs, scripts","The effect depends on whether the interpreter was started by an earlier call.",["src/bif/exec_python.rs: setup_venv","src/bif/exec_python.rs: exec_py","src/bif/exec_python.rs: setup_python_path"])

p("C85","The answer of a script is data",
"If the text of the answer of a script contains neither {: nor :}, its member data becomes local data of the block of the obj bif (nothing else: schema and file accesses are unchanged), and then the template and the code of the bif are evaluated in that state. (That the answer is only ever data is false for other answers: C78.)",
"all scripts, answers, templates, states","The answer is spliced into the template as source text; a test sees only the answers of its script.",["src/bif/parse_bif_obj.rs: parse_bif_obj","src/bif/parse_bif_data.rs: parse_bif_data"])
p("C86","A source in two parts is evaluated part by part",
"If a well-formed source is cut between two of its items, its evaluation is that of the first part followed, in the state the first part leaves, by that of the second; the outputs are concatenated (and trimmed once at the end). If the first part exits, the second contributes nothing.",
"all well-formed sources, all cuts, all states","Every source and every position of the cut.",["src/block_parser.rs: BlockParser::parse_with_modifiers"])

p("C87","The order of the modifiers does not matter",
"Outside a cache block, two bifs that differ only in the order (or repetition) of their modifiers evaluate alike: same output, same state, same interactions, same errors. Only the source quoted by an error line of the bif itself differs. (neutral outputs its own text and is excluded.)",
"all bifs, bodies, modifier lists with the same members, states, environments","All permutations of all modifiers over all bifs and states.",["src/bif/mod.rs: Bif::parse","src/bif/mod.rs: Bif::extract_params_code"])
p("C88","White space around the parts of a bif does not matter",
"Outside a cache block, white space before and after the body of a bif, and around its parameters and its code, changes nothing of its evaluation but the source quoted by an error line of the bif itself. (neutral outputs its own text; the bifs without parameters, such as coalesce, read the body whole, for them the claim is about the body.)",
"all bifs, parameters, codes, white spaces, states, environments","All layouts of all bifs.",["src/bif/mod.rs: Bif::extract_params_code","src/utils.rs: get_code_position"])

p("C89","Any character can delimit the arguments",
"The first character of the parameters delimits the arguments: whichever character (of any length in UTF-8, not white space, not occurring in the arguments) is chosen, the arguments are the texts between the delimiters, and same, contains, replace, cache, fetch, join and sum evaluate alike: same output, state and interactions, only the source quoted by an error line of the bif itself differs.",
"all delimiters, argument lists, codes, states, environments","All pairs of delimiters, all arguments.",["src/bif/mod.rs: extract_args","src/bif/parse_bif_same.rs: parse_bif_same","src/bif/parse_bif_join.rs: parse_bif_join"])

p("C90","The page is the content without the marks",
"The page a successful render returns is its content with the moved contents in place, without the marks that ^ writes, each taken away together with all the white space directly before it (and none after it), and then without the marks of silent bifs; nothing else of the content changes. So a bif with ^ continues the text before it however much white space lies between.",
"all contents, any number of marks at any places, all Unicode white space","All contents and all arrangements of marks and white space.",["src/template.rs: Template::replacements","src/bif/mod.rs: Bif::parse_bif","src/constants.rs: BACKSPACE, UNPRINTABLE"])

p("C91","The bif limit only stops evaluations",
"Whatever evaluates successfully with some limit of bifs gives the same output and the same state with any larger limit; with a smaller limit an evaluation has the same result (or the same panic) or is stopped by the limit. No bif can observe the limit.",
"all sources, states, environments, limits","All sources and all pairs of limits.",["src/bif/mod.rs: Bif::new","src/shared.rs: Shared::new (bisf_max)"])
p("C92","A page depends on the world only through the recorded interactions",
"Every question a render asks to the world (files, clock, random numbers, scripts) is an interaction; in any other world that gives the same answers to these questions the render has the same result and asks the same questions again. So files that it does not ask about have no influence, and a page without interactions is the same everywhere and at all times.",
"all templates, schemas, worlds","Quantifies over all worlds, including those where any other file, clock or script is different.",["src/bif/*.rs: every call of std::fs, SystemTime, rand, exec_py, exec_php","src/template.rs: Template::render"])

p("C93","What happens inside PHP when a template calls a PHP script",
"If the peer is PHP-FPM running the bridge script: the three global variables are set, the script named by the template is loaded at most once, and its callback is called at most once, after that, with the parameters of the call (no parameters are an empty array); the schema and its data are null unless they were handed over; nothing else is loaded or called. The caller gets the callback's result as JSON, or an error that names the first step that failed (script missing, load failed, callback missing, callback failed, result not JSON); whatever the script prints by itself is put before the answer.",
"all calls, scripts, callbacks, results, ways in which the peer cuts its answer into records, worlds","Runs over two languages and a network protocol, all scripts and all failures.",["src/bif/exec_php.rs: BRIDGE_SCRIPT","src/bif/exec_php.rs: PhpExecutor::exec_php"])

p("C94","clean-cache removes only what has expired",
"The script clean-cache removes only regular files HASH-SECONDS in directories of three hexadecimal digits of a directory whose name contains neutral-cache, and such directories when everything in them was removed; otherwise it refuses. An entry whose seconds are written without leading zeros is removed exactly when they have passed; then the engine would serve it no more, except in that very second. (That no entry is removed while it would be served is false for leading zeros: bash reads 0300 as octal. An entry with a sign, /+60/, is never removed. A render that runs at the same time may find its entry removed between two steps and output nothing for a block without bifs.)",
"all directories and file names, clocks, ages, arguments","All directory trees, names and ages; the boundary and the two readings of a number are met by few of them.",["cache-utils/clean-cache","src/bif/parse_bif_cache.rs: cache_file_expires","src/bif/parse_bif_cache.rs: get_cache_dir"])

p("C95","Words and arguments are cut in one way only",
"Every text has exactly one list of words, in order: what is between white space (any Unicode white space), without empty ones. The arguments of a bif are what is between the occurrences of the first character of its parameters, in order, numbered from 1, empty ones included; put together again with that character they are the parameters.",
"all texts, all Unicode white space, delimiters of any length in UTF-8","All texts.",["src/bif/mod.rs: extract_args","src/bif/parse_bif_each.rs: parse_bif_each","src/bif/parse_bif_for.rs: parse_bif_for"])
p("C96","Missing and malformed arguments are reported, and nothing else happens",
"same, contains, replace, sum, fetch, join, cache, each, for and rand with too few arguments, with an argument that is not a number where one is needed, or (each, for) with code whose bifs are not balanced, write nothing and record exactly one error, whose message says what is missing; apart from that the state is the one after the evaluation of the arguments: the code is not evaluated, no variable is changed, nothing is stored.",
"all bodies, argument lists, modifiers, states, environments","All argument lists, all evaluations of arguments.",["src/bif/parse_bif_each.rs: parse_bif_each","src/bif/parse_bif_for.rs: parse_bif_for","src/bif/parse_bif_rand.rs: parse_bif_rand","src/bif/parse_bif_join.rs: parse_bif_join","src/bif/parse_bif_cache.rs: parse_bif_cache","src/constants.rs: BIF_ERROR_*"])
p("C97","Unknown bifs, unknown flags and their error lines",
"A bif whose name is in no table, or with a flag that it does not have, writes nothing and is recorded as exactly one error, and its code is not evaluated; a bif without ; likewise. The line of an error is [time] Error (bif) message file~: (file) src: source, on one line; apart from it, the state is the one in which the bif has failed.",
"all names, flags, bodies, modifiers, states, environments","All names and all flags.",["src/bif/mod.rs: Bif::parse","src/bif/parse_bif_unknown.rs: parse_bif_unknown","src/bif/parse_bif_allow.rs: parse_bif_allow","src/bif/parse_bif_code.rs: parse_bif_code"])

p("C98","JSON text is read and written as RFC 8259 says",
"A schema, inline data, a data file, a locale or an object description is accepted exactly if its text is a JSON text (RFC 8259) with at most 127 nested containers, and then means the value the grammar gives it; of a repeated key the last value counts, at the first place. What either printer writes of a value is a JSON text of that value unless the value is nested deeper; different values are written differently; what has been read is read back when it is written, unless it has floats that are not (C109). So a schema given as text does what the value does, two requests with different values of GET, POST or COOKIES have different cache keys, debug shows a text that can be read, and an answer whose strings contain neither {: nor :} is data for the template.",
"all texts, all values, all depths; the value of numbers with a fraction, an exponent or more than 64 bits is a parameter here (see C109)","All texts and all values.",["src/template.rs: merge_schema_str, merge_schema_path","src/bif/parse_bif_data.rs: parse_bif_data","src/bif/parse_bif_locale.rs: parse_bif_locale","src/bif/parse_bif_obj.rs: parse_bif_obj","src/bif/parse_bif_cache.rs: parse_bif_cache","src/bif/parse_bif_debug.rs: parse_bif_debug","Cargo.toml: serde_json"])
p("C99","The client script requests what the classes say and puts the answer where it belongs",
"On a page with the script of {:fetch;, whatever is clicked, submitted, scrolled into view, answered or fails, in any order: an element that arrives (with the page or with an answer) with the class neutral-fetch-auto is requested exactly once, one with neutral-fetch-click once per click on it or in it, one with neutral-fetch-visible the first time it comes into view and never again, a form with neutral-fetch-form once per submission; nothing else is requested, every request goes to the element's own URL. The answer takes the place of the target (the element, or the one with the id it names) and changes nothing else; after a failure the target is emptied, a form kept; if the target is gone or there is none, the document does not change.",
"all pages, all schedules of clicks, views, submissions, delays, answers and failures, all answers","The schedule is chosen by the user and the network.",["src/constants.rs: NEUTRAL_JS (neutral_fetch, neutral_obs, neutral_fev)"])
p("C100","Forms sent by the client script",
"A form whose buttons are submit buttons has at most one request under way; while it is under way the buttons are disabled and show the loading text, after a failure the error text, and then again what they showed at first. (If the answer goes elsewhere and leaves the form, it can never be submitted again; if the form is submitted by a script while a request is under way, the text is lost.) Without a file field a form sends every successful control with its values; with a file field every other field whose name has no [] is sent once more, disabled fields and buttons included.",
"all button texts, all schedules of submissions, answers, failures and restorations; all lists of controls","All schedules.",["src/constants.rs: NEUTRAL_JS (neutral_fetch_form)"])

p("C101","The settings of a render",
"Everything a render works with is what the schema says at its start and stays so until its end: the two limits config.infinite_loop_max_bifs and config.debug_expire are those numbers; each switch (filter_all, cache_on_post, cache_on_get, cache_on_cookies, cache_disable, disable_js) is on exactly if its value is true in the sense of C21; comments, cache_prefix, debug_file and the language are the texts found (the cache directory is the temporary directory if that is empty). If one of the two limits is not a natural number, every render of a template with a bif aborts; if config.error.show is neither true nor false, the first failing bif aborts the render instead of being reported.",
"all schemas, templates, environments","All schemas.",["src/shared.rs: Shared::new","src/template.rs: init_render","src/bif/mod.rs: Bif::parse"])
p("C102","Histories of API calls",
"After any history of calls on a new template (set_src_str, set_src_path, merge_schema_value/str/path/msgpack/msgpack_path, render, render_once) the source is the last one set, the path the last one given (even if the file could not be read) and the schema the default one updated with the merged values in their order; a call that fails returns the error and changes nothing else; render_once gives the schema away. Only calls that name a file touch the file system, by one read. A call aborts exactly when it merges a value that is neither an object nor null. As long as the merged values keep the types of the settings, a render aborts only for the reasons of C57. from_file_value is new + set_src_path + merge_schema_value, and empty MessagePack data stands for {}. Two histories with the same merges in the same order and the same last source and path render alike.",
"all histories of calls, all file systems and decoders","All histories.",["src/template.rs: Template::new, from_file_value, from_file_msgpack, set_src_path, set_src_str, merge_schema_*"])

p("C103","Schemas as MessagePack",
"Bytes are accepted as a schema exactly if they begin with one MessagePack value of at most 1023 nested containers made of nil, booleans, integers, floats (NaN and the infinities become null), UTF-8 strings, arrays and maps with string keys (a second or later key may also be binary data that is a text; of a repeated key the last value counts); binary data, extensions and the unused marker are refused. The value and its end are unique: data cut short anywhere is refused, bytes after the value are ignored. A value written by to_vec is read back as itself, and different values are written differently. Merging packed data does exactly what merging the value, or any JSON text of it, does; refused data changes nothing. from_file_msgpack takes empty data as {}, merge_schema_msgpack refuses it.",
"all byte strings, all values, all templates","All byte strings.",["src/template.rs: from_file_msgpack, merge_schema_msgpack, merge_schema_msgpack_path","doc/msgpack.md"])

p("C104","The public text helpers",
"strip_prefix_suffix takes the prefix and the suffix away together: if the text is prefix, middle, suffix it returns the middle, otherwise (also when prefix and suffix would overlap) the text unchanged. find_tag_position returns the position before the first occurrence of a closing tag, or after the first > following the first occurrence of an opening tag, and nothing exactly if there is no such place.",
"all texts, prefixes, suffixes and tags","All texts.",["src/utils.rs: strip_prefix_suffix, find_tag_position"])

p("C105","The connection to the PHP server",
"However the answer of the PHP server is cut into pieces, delayed below the time-out and interrupted by signals, and however the request is taken in parts, the call gives the same result as if everything had come at once. If the connection breaks or stalls for five seconds, a value is returned only if the end record of the answer had already come; otherwise the call reports the failure. What reaches the server is the whole request, or a proper beginning of it if an error is reported; a request that is too large is given up before any of its body is sent. Every wait is limited to five seconds, but a call as a whole is not: a peer that sends a byte every few seconds can hold it as long as it likes.",
"all schedules of reads and writes (pieces, delays, signals, errors), all requests and answers","The splitting of reads and writes and the moment of a failure are chosen by the network; tests see a few.",["src/bif/exec_php.rs: exec_php, connect_endpoint, send_fastcgi_request, read_fastcgi_response, write_record, FpmStream"])

p("C106","Script objects end to end",
"PHP: if the template describes a PHP object, PHP-FPM serves the bridge and the connection does not fail, then what the callback returns is exactly what the block of the object sees, however the request and the answer were cut into pieces on the way: the JSON text of the returned value, read back, is the answer whose data member becomes the data of the block. If the connection breaks or stalls before the answer is whole the bif fails with the reason, and nothing of the answer is used. Python: all calls of all renders are made in one process, each in the state that the calls before it left; if a function is run, what it returns is what the block of the object sees (not always the function of the file that the object names: of two scripts with one name the first answers for both).",
"all templates, states, objects, scripts, callbacks, histories of the process and schedules of the connection","Needs a PHP server and a network that cuts and fails at every point, and processes of any age.",["src/bif/exec_python.rs: exec_py","src/bif/parse_bif_obj.rs: parse_bif_obj","src/bif/exec_php.rs: exec_php","src/bif/exec_php.rs: BRIDGE_SCRIPT"])
p("C107","The digests of the cache, of hash and of moveto",
"The name of a cache entry is the SHA-256 digest of its key, and the output of {:hash;} and the name under which {:moveto;} registers its content are MD5 digests, exactly as FIPS 180-4 and RFC 1321 define them, for texts of every length: 64 and 32 lower-case hexadecimal digits. Hence no rendering aborts because a digest is too short to cut, every entry lies two levels below the cache directory, all machines name the entry of a key alike, the sweep recognises every entry, and two evaluations that differ in one part of the key meet in one file only if their keys collide in SHA-256.",
"all texts (of any length), states, keys and machines with these digests","A test compares a few vectors; the shape and the agreement with the standard must hold for every text, and the consequences for every template.",["src/bif/parse_bif_hash.rs: parse_bif_hash","src/bif/parse_bif_cache.rs: parse_bif_cache, get_cache_dir","src/bif/parse_bif_moveto.rs: moveto"])
p("C108","The numbers of {:sum;}",
"{:sum; /x/y/ :} reads its arguments as IEEE 754 double precision numbers (nearest, ties to even; decimal with optional point and exponent, inf, infinity, nan), adds them with one rounding and prints the shortest decimal that is read back as the same number, without exponent, superfluous zeros or '+'. Hence the text of a sum can always be fed to another sum without loss; integers below 2^53 are added exactly, however many, and printed the usual way; otherwise a sum differs from the exact one by at most its 2^53rd part; the order of two arguments does not matter (that of three does). A text that stands for a number is true in a condition exactly if the number is positive.",
"all texts, numbers, states and templates","There are 2^128 pairs of numbers and infinitely many texts of each; the dangerous ones (ties, subnormals, overflow, shortest digits) are not the ones tests try.",["src/bif/parse_bif_sum.rs: parse_bif_sum","src/utils.rs: is_bool_key"])

p("C109","The floating-point numbers of JSON",
"A number of a schema, inline data, a data file, a locale or an object description that has a fraction, an exponent or more than 64 bits is shown as the shortest decimal of a double precision number: with a point and digits on both sides, or with an exponent if it is less than 0.00001 or not less than 10^16; never as an integer, and with the sign it was written with. With at most 15 digits (and a power of ten between -22 and 22) it is shown as the number that was written; below 2^53 it is the nearest double; otherwise it may be another one: it differs from the number written by at most its 2^49th part (unless it is less than 2^-1020). It is refused only if it is 2^1024 or more, up to that error. It counts as true in a condition exactly if it is positive. Two values that were read are written alike only if they are the same value. But what is shown need not be read as the same number: 8000000000000020.0 is read, and shown, as 8000000000000019.0; numbers of less than 2^53 (without point) are read as themselves.",
"all number tokens","There are 2^64 doubles and infinitely many tokens; the tokens that are read inexactly are those with 16 and more digits, one in a few hundred of them, and no test of the project has one.",["Cargo.toml: serde_json (without float_roundtrip)","src/template.rs: merge_schema_str, merge_schema_path","src/utils.rs: get_from_key, is_bool_key","src/bif/parse_bif_data.rs: parse_bif_data"])

p("C110","What the host reads after a rendering",
"After any sequence of API calls the status text that the host reads is the reason phrase of the status code that it reads: the standard one for a known code, empty for any other, \"OK\" for the 200 of a template never rendered; rendering a text without bifs leaves the reported status as it was. A rendering that ends with a status that is neither an error nor a redirection gives the page, or exactly one of the four scripts that reload or lead to another page, never a mixture.",
"all histories of API calls, all templates and environments","The code and the text are stored separately and are set by exit, redirect, unbalanced templates and every new rendering; only an invariant over all executions shows that they never get out of step.",["src/template.rs: get_status_code, get_status_text, get_status_param, set_status_code","src/shared.rs: Shared::new","src/bif/parse_bif_exit.rs","src/bif/parse_bif_redirect.rs","src/constants.rs: REDIR_JS_*"])

p("C111","The floats of MessagePack",
"A float of four or eight bytes in a schema given as MessagePack is the IEEE 754 number of these bytes and is shown as the shortest decimal of that number, in the form of C109; NaN and the infinities become null. Every double precision number can be given in exactly one way as eight bytes and different ones are shown differently, so unlike in JSON text no number is changed on the way; a float of four bytes is shown as the double of the same value (so the single nearest to 0.1 is not shown as 0.1). A schema read from JSON text and packed by to_vec, or read from MessagePack and packed again, is read back as the same value, and merging it has the same effect as merging the JSON text.",
"all floats of four and eight bytes, all JSON texts, all MessagePack data, all templates","There are 2^64 + 2^32 words, and the rare ones (subnormals, signed zero, numbers that JSON text does not bring across) are not the ones tests try.",["src/template.rs: merge_schema_msgpack, merge_schema_msgpack_path, from_file_msgpack","Cargo.toml: rmp-serde, serde_json","doc/msgpack.md"])

p("C112","The dates of {:date;}",
"{:date; format :} shows the time of the call (UTC) in the format: every character that does not follow a % is shown as it is, and each % with its letter shows what the format's documentation says (year, month, day, weekday, the three week numberings, hours, minutes, seconds, names, composite forms), with dates by the Gregorian calendar, in which every day since 1970 has exactly one date. Whether a format is accepted depends on the format alone, never on the time; a format with a % before a character that means nothing, or at its end, is refused, and refusing a format aborts the render (panic). Times shown in the format %Y-%m-%d %H:%M:%S sort as texts in the order of time, and different seconds are shown differently. Without a format, or with %s, the seconds since 1970 are shown in decimal.",
"all times before the year 10000, all formats, all modifiers without & ! +, all states","A test sees a handful of days; leap centuries, ISO years that begin in December and the formats nobody tried are reached years later.",["src/bif/parse_bif_date.rs: parse_bif_date","doc/bif-date.md","Cargo.toml: chrono"])

with open('/verif/properties.jsonl','w') as f:
    for x in P: f.write(json.dumps(x,ensure_ascii=False)+"\n")
print(len(P))
