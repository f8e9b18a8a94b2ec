{"id": "C01", "title": "Wildcard matching means what its documentation says", "statement": "A text matches an allow/declare pattern exactly when it can be split along the pattern: an ordinary character stands for itself, '\\\\c' for the character c, '?' for any one character, '.' for zero or one, '*' for any number, and '~' only for the empty remaining text.", "quantifier": "all texts and all patterns (UTF-8 strings of any length)", "why_tests_cant": "Matching backtracks; the set of text/pattern pairs is infinite and the interesting ones mix '*', '.', escapes and '~'.", "anchors": ["src/utils.rs: wildcard_match", "src/bif/parse_bif_allow.rs: parse_bif_allow"]}
{"id": "C02", "title": "A declared word without wildcards matches only itself", "statement": "If a declared word contains none of the characters . ? * ~ \\ then it matches a text exactly when the text is equal to the word.", "quantifier": "all words without special characters, all texts", "why_tests_cant": "Tests only try a few words.", "anchors": ["src/utils.rs: wildcard_match"]}
{"id": "C03", "title": "The built-in 'traversal' declaration catches every traversal path", "statement": "With the word list shipped in the default schema for 'traversal', a path is matched whenever it starts with '/' or with a backslash or contains '..' anywhere, and no other path is matched; so {:!allow; traversal >> path :} never outputs such a path.", "quantifier": "all candidate paths", "why_tests_cant": "Path traversal filters must hold for every attacker-chosen path.", "anchors": ["src/default_json.rs: DEFAULT inherit.declare.traversal", "src/utils.rs: wildcard_match", "src/bif/parse_bif_allow.rs: parse_bif_allow"]}
{"id": "C04", "title": "allow only lets declared values through", "statement": "The bif allow outputs its (rendered) content only if some whitespace-separated word of the named declaration matches that content, otherwise it outputs nothing; with '!' it outputs the content only if no word matches. With the replace flag it outputs only text of the declared word.", "quantifier": "all schemas, declarations, contents and template contexts", "why_tests_cant": "The whitelisting guarantee is over all contents.", "anchors": ["src/bif/parse_bif_allow.rs: parse_bif_allow", "src/utils.rs: wildcard_match"]}
{"id": "C05", "title": "HTML escaping is reversible", "statement": "Unescaping an escaped string with the same brace setting gives back the original string.", "quantifier": "all strings (no bound on length), both brace settings", "why_tests_cant": "Round trips over all strings, including ones that already contain entities.", "anchors": ["src/utils.rs: escape_chars, unescape_chars"]}
{"id": "C06", "title": "Escaped text contains no active characters", "statement": "The result of escaping contains none of < > \" ' / (and no { or } when braces are escaped), and every & in it starts one of the eight entities the escaper writes.", "quantifier": "all strings (no bound on length), both brace settings", "why_tests_cant": "XSS safety is a claim about every input.", "anchors": ["src/utils.rs: escape_chars"]}
{"id": "C07", "title": "Filtering twice is the same as filtering once", "statement": "The value filter applied to CONTEXT (and the & modifier's unescape-then-escape) is idempotent: applying it again changes nothing, so there is no double encoding.", "quantifier": "all strings and all JSON values of any depth", "why_tests_cant": "Quantifies over all nested values.", "anchors": ["src/utils.rs: filter_value, filter_value_keys, escape_chars, unescape_chars", "src/bif/parse_bif_var.rs"]}
{"id": "C08", "title": "Everything under data.CONTEXT is filtered before a template sees it", "statement": "When rendering starts, every string value under data.CONTEXT is free of < > \" ' / { } and every object key under it too, whatever the caller put there.", "quantifier": "all user schemas", "why_tests_cant": "User-controlled data of any shape and depth.", "anchors": ["src/template.rs: init_render, init_render_once", "src/utils.rs: filter_value, filter_value_keys"]}
{"id": "C09", "title": "Filtering keys can lose entries only when two keys become equal", "statement": "Filtering the keys of an object keeps every value whose filtered key is unique; when two keys become equal the later value wins (documented here because data is then lost).", "quantifier": "all JSON objects", "why_tests_cant": "Collision behaviour depends on arbitrary pairs of keys.", "anchors": ["src/utils.rs: filter_value_keys"]}
{"id": "C10", "title": "Variables are never evaluated", "statement": "With the default configuration (cache enabled), the text produced by {:;name:} contains neither '{:' nor ':}' whatever the value of the variable is and whichever of the modifiers & and ! is used, so that a value is never re-evaluated as template code. (Exception, see the refuted theorem: names below CONTEXT with & when a loop has rebound CONTEXT.)", "quantifier": "all schemas, all variable names, all variable values", "why_tests_cant": "The injection-safety claim is over all data values.", "anchors": ["src/bif/parse_bif_var.rs: parse_bif_var", "src/constants.rs: BIF_SANITIZE_OPEN, BIF_SANITIZE_CLOSE"]}
{"id": "C11", "title": "Code with the safe flag is inert", "statement": "The output of {:code; {:flg; safe :} >> text :} contains no '{:' and no ':}' and no < > \" ' /, whatever the text is.", "quantifier": "all strings (no bound on length)", "why_tests_cant": "Safety claim over all contents.", "anchors": ["src/bif/parse_bif_code.rs: parse_bif_code"]}
{"id": "C12", "title": "Merging schemas: what the second schema says wins, the rest is kept", "statement": "After merging b into a: a path that leads to a non-object value in b has that value in the result; a path that b does not touch keeps its value from a; keys keep the order of a with new keys appended in the order of b.", "quantifier": "all pairs of JSON objects of any depth, all paths", "why_tests_cant": "Recursive structure, all shapes.", "anchors": ["src/utils.rs: merge_schema, merge_schema_owned"]}
{"id": "C13", "title": "The borrowed and the owned merge agree, and merging twice changes nothing", "statement": "merge_schema and merge_schema_owned compute the same value, and merging the same b a second time leaves the value unchanged.", "quantifier": "all pairs of JSON values", "why_tests_cant": "All shapes.", "anchors": ["src/utils.rs: merge_schema, merge_schema_owned"]}
{"id": "C14", "title": "update_schema always stamps the engine version", "statement": "After a successful update the top-level version is the crate version, whatever version the merged schema carried; all other top-level keys except data are those of the merge.", "quantifier": "all pairs of JSON values", "why_tests_cant": "All shapes.", "anchors": ["src/utils.rs: update_schema, update_schema_owned"]}
{"id": "C15", "title": "Header spelling variants agree after an update", "statement": "If one of the three spellings of requested-with-ajax is present in data.CONTEXT.HEADERS after the merge, then after the update all three are present and have the same value.", "quantifier": "all pairs of JSON values", "why_tests_cant": "All combinations of present variants.", "anchors": ["src/utils.rs: update_schema, update_schema_owned"]}
{"id": "C16", "title": "Block extraction finds exactly the outermost bifs of a well-formed template", "statement": "For the text of any well-formed template (literal text, comments and bifs, nested to any depth), extraction succeeds and returns exactly the spans of the outermost bifs and comments, in order.", "quantifier": "all well-formed templates of any size and nesting depth", "why_tests_cant": "Nesting depth and length unbounded.", "anchors": ["src/utils.rs: extract_blocks"]}
{"id": "C17", "title": "Extracted blocks are ordered, disjoint and delimited", "statement": "For any source, if extraction succeeds then the spans are in bounds, increasing and disjoint, each starts with '{:' and ends with ':}', and no ':}' is left in the text between them; if it fails, the reported position is that of a ':}'.", "quantifier": "all sources", "why_tests_cant": "All strings, including malformed ones.", "anchors": ["src/utils.rs: extract_blocks"]}
{"id": "C18", "title": "Unbalanced templates give status 500 and no output", "statement": "If a ':}' is left over outside every block, the block is rendered as the empty string with status 500, text 'Internal Server Error' and the position in the status parameter.", "quantifier": "all sources", "why_tests_cant": "All malformed sources.", "anchors": ["src/block_parser.rs: parse, handle_unmatched_block"]}
{"id": "C19", "title": "The params/code separator is the first '>>' outside nested bifs", "statement": "The split position is the first '>>' that is not inside a '{:' ... ':}' pair of the source; text inside nested bifs never splits the outer bif.", "quantifier": "all well-formed bif sources", "why_tests_cant": "Nesting unbounded.", "anchors": ["src/utils.rs: get_code_position", "src/bif/mod.rs: extract_params_code"]}
{"id": "C20", "title": "Variable paths resolve step by step", "statement": "A name a->b->c resolves to the value reached by following object keys (array indices when the current value is an array); '/' and '->' are interchangeable separators; a missing step gives an undefined value, which renders as the empty string.", "quantifier": "all JSON values, all paths", "why_tests_cant": "All paths and shapes.", "anchors": ["src/utils.rs: resolve_pointer, get_from_key"]}
{"id": "C21", "title": "Truthiness tables of bool, filled, defined and array", "statement": "bool/filled/defined/array tests give exactly the documented answer for each kind of value; filled implies defined, array implies defined, defined fails exactly on missing or null; bool of a non-empty non-numeric string other than 'false' is true.", "quantifier": "all JSON values and names", "why_tests_cant": "All values, including every string.", "anchors": ["src/utils.rs: is_bool_key, is_empty_key, is_defined_key, is_array_key"]}
{"id": "C22", "title": "'!' is the exact complement for the conditional bifs", "statement": "For bool, filled, defined, array, same and contains, with the same source and context exactly one of the plain and the '!' form renders its code, the other renders nothing.", "quantifier": "all parameters, code and contexts", "why_tests_cant": "All states and conditions.", "anchors": ["src/bif/parse_bif_bool.rs", "src/bif/parse_bif_filled.rs", "src/bif/parse_bif_defined.rs", "src/bif/parse_bif_array.rs", "src/bif/parse_bif_same.rs", "src/bif/parse_bif_contains.rs"]}
{"id": "C23", "title": "A condition that fails evaluates none of its code", "statement": "When the condition of bool/filled/defined/array/same/contains/else/eval does not hold the code part has no effect at all: no variable, snippet, status, error, file access or bif count changes.", "quantifier": "all states and code", "why_tests_cant": "Absence of effects over every code.", "anchors": ["src/bif/parse_bif_*.rs conditional handlers"]}
{"id": "C24", "title": "else renders exactly when the previous bif of the same level rendered nothing", "statement": "{:else; c :} renders c when the previous bif in the same block wrote nothing at all (before white space is trimmed) and renders nothing when it wrote something; {:!else;} the converse.", "quantifier": "all preceding bifs and contexts", "why_tests_cant": "All histories of a block.", "anchors": ["src/bif/parse_bif_else.rs", "src/bif/mod.rs: parse (last_bif_out)"]}
{"id": "C25", "title": "coalesce yields the first non-empty alternative and evaluates no later one", "statement": "In {:coalesce; alternatives :} alternatives are evaluated in order until one yields output; later ones are not evaluated at all.", "quantifier": "all lists of alternatives, any length", "why_tests_cant": "All lists; absence of effects of the later ones.", "anchors": ["src/bif/parse_bif_coalesce.rs", "src/block_parser.rs: parse_with_blocks"]}
{"id": "C26", "title": "Every parse terminates within the bif budget", "statement": "Parsing any template in any context terminates: either with a result or, when more than infinite_loop_max_bifs bifs have been created, with the 'Infinite loop?' panic; never more than that number of bifs are started.", "quantifier": "all templates, contexts, file systems and external programs", "why_tests_cant": "Divergence can only be excluded by a proof.", "anchors": ["src/bif/mod.rs: Bif::new", "src/block_parser.rs", "src/macros.rs"]}
{"id": "C27", "title": "When a render ends", "statement": "A render of a template with bifs ends exactly if no pass of its cache loop leaves a text with a cache bif that is never closed; in that case it never ends. In particular render does not terminate for every template ({:!cache; hello), see the refuted theorem.", "quantifier": "all templates, all environments", "why_tests_cant": "Non-termination cannot be observed by a test.", "anchors": ["src/template.rs: render, render_once"]}
{"id": "C28", "title": "Local definitions do not leak out of a block", "statement": "Parameters, declarations, translations and local data defined while evaluating the content of a bif without the scope modifier are not visible to the bifs that follow it in the parent block.", "quantifier": "all contents, all contexts", "why_tests_cant": "All contents, any nesting.", "anchors": ["src/block_parser.rs: create_block_schema, update_indir, Drop", "src/macros.rs: new_child_parse"]}
{"id": "C29", "title": "Local definitions are inherited by nested blocks", "statement": "What is defined in a block before a nested bif is visible inside that bif's content, until redefined there.", "quantifier": "all contexts", "why_tests_cant": "All histories.", "anchors": ["src/block_parser.rs: create_block_schema", "src/macros.rs"]}
{"id": "C30", "title": "The scope modifier '+' exports definitions to the current level", "statement": "With '+', definitions made in the content of the bif are visible to the following bifs of the current level.", "quantifier": "all contents", "why_tests_cant": "All contents.", "anchors": ["src/macros.rs: new_child_parse", "src/block_parser.rs: update_indir"]}
{"id": "C31", "title": "A template cannot change the configuration, the inherit section or the version", "statement": "No template can change schema.config, schema.inherit or any other top-level key except data, __moveto and __error; data stays an object.", "quantifier": "all templates, contexts, file systems and external programs", "why_tests_cant": "Over all templates.", "anchors": ["src/bif/*.rs", "src/shared.rs"]}
{"id": "C32", "title": "Errors are append-only and has_error tells whether there are any", "statement": "During a render the error list only grows, no bif removes or changes an entry, and has_error is true exactly when the list is non-empty.", "quantifier": "all templates", "why_tests_cant": "All executions.", "anchors": ["src/bif/mod.rs: parse", "src/template.rs: has_error, get_error"]}
{"id": "C33", "title": "An error in one bif does not stop the render", "statement": "A bif that fails contributes at most its own output; the text and the bifs after it are still processed.", "quantifier": "all templates and failing bifs", "why_tests_cant": "All positions and failures.", "anchors": ["src/bif/mod.rs: parse", "src/block_parser.rs: parse_with_blocks"]}
{"id": "C34", "title": "each visits every element once, in order, and restores the loop variables", "statement": "each renders its code once per element in order with the key and the value bound in data, concatenates the results, and afterwards the two variables have their previous value (null if they were undefined).", "quantifier": "all arrays and objects of any length, all bodies", "why_tests_cant": "Unbounded collections and arbitrary bodies.", "anchors": ["src/bif/parse_bif_each.rs"]}
{"id": "C35", "title": "for counts through its range inclusively in the right direction", "statement": "for renders its code once for every integer between the bounds, both included, ascending if from<=to and descending otherwise, with the variable bound to the decimal text.", "quantifier": "all 32-bit bounds, all bodies", "why_tests_cant": "2^64 pairs of bounds.", "anchors": ["src/bif/parse_bif_for.rs"]}
{"id": "C36", "title": "What for leaves in its variable", "statement": "After the loop the variable is a string: the text that the previous value had. So a string is restored, and only a string: a number or boolean comes back as its text, an array, object, null or undefined variable as an empty string. (That every value is restored is false, see the refuted theorem.)", "quantifier": "all previous values, all loop bodies, all states", "why_tests_cant": "All values.", "anchors": ["src/bif/parse_bif_for.rs"]}
{"id": "C37", "title": "Dynamic variable names need allow", "statement": "{:;{:;ref:}:} and any variable name that is itself a bare variable bif is rejected: error 'insecure varname', empty output, and the inner variable is not evaluated.", "quantifier": "all inner names, all contexts", "why_tests_cant": "All names and contexts.", "anchors": ["src/bif/parse_bif_var.rs", "src/bif/mod.rs: contains_allow"]}
{"id": "C38", "title": "Dynamic file names need allow", "statement": "include, data and locale with a file name that is a bare variable bif are rejected with an error and the file system is not touched at all.", "quantifier": "all inner names, contexts, file systems", "why_tests_cant": "Absence of file accesses over all states.", "anchors": ["src/bif/parse_bif_include.rs", "src/bif/parse_bif_data.rs", "src/bif/parse_bif_locale.rs"]}
{"id": "C39", "title": "!include includes a file at most once", "statement": "{:!include; f :} does nothing when the canonical path has already been included at this level or an enclosing one; a plain include records the path and always includes.", "quantifier": "all file systems and histories", "why_tests_cant": "All histories of includes.", "anchors": ["src/bif/parse_bif_include.rs"]}
{"id": "C40", "title": "exit and redirect decide the final output", "statement": "After a render whose status code is a 4xx/5xx code the output is exactly 'code text'; for 301, 302, 303, 307, 308 it is 'code text', a newline and the target; otherwise a JavaScript redirection, if set, replaces the output; otherwise the rendered content is returned.", "quantifier": "all final states", "why_tests_cant": "All codes and contents.", "anchors": ["src/template.rs: set_status_code"]}
{"id": "C41", "title": "redirect accepts only its listed types", "statement": "redirect changes the status only for 301/302/303/307/308 with a non-empty target or for the js: types; any other type is an error that leaves status and exit flag unchanged (unless the target contains both js:reload texts, see the refuted theorem).", "quantifier": "all types and targets", "why_tests_cant": "All strings.", "anchors": ["src/bif/parse_bif_redirect.rs"]}
{"id": "C42", "title": "After exit no further bif runs", "statement": "While the exit flag is raised no bif of any block is started, and the rest of every enclosing block is dropped. (That the flag is never lowered again is false: {:!exit; around an exit lowers it, see the refuted theorem.)", "quantifier": "all templates", "why_tests_cant": "All continuations.", "anchors": ["src/block_parser.rs: parse_with_blocks", "src/bif/parse_bif_exit.rs"]}
{"id": "C43", "title": "moveto only inserts", "statement": "Moving content inserts each moved text after the opening tag or before the closing tag it names, once per distinct content; nothing of the original output is lost; unknown tags are ignored.", "quantifier": "all outputs and moved contents", "why_tests_cant": "All outputs.", "anchors": ["src/bif/parse_bif_moveto.rs", "src/template.rs: set_moveto", "src/utils.rs: find_tag_position"]}
{"id": "C44", "title": "render and render_once agree and render leaves the schema alone", "statement": "render and render_once from the same template state give the same output, status and errors; render does not change the schema, so merging and rendering again behaves as if the first render had not happened (source text apart).", "quantifier": "all templates, schemas, environments", "why_tests_cant": "All templates and schemas.", "anchors": ["src/template.rs: render, render_once, init_render, init_render_once"]}
{"id": "C45", "title": "A template without bifs is returned trimmed", "statement": "If the source contains no '{:' the output is the source with surrounding whitespace removed.", "quantifier": "all sources and schemas", "why_tests_cant": "All strings.", "anchors": ["src/template.rs: render, render_once"]}
{"id": "C46", "title": "Literal text is copied verbatim", "statement": "Outside bifs and comments every byte of the source appears in the output in order; comments contribute nothing.", "quantifier": "all templates", "why_tests_cant": "All texts around any bifs.", "anchors": ["src/block_parser.rs: parse_with_blocks"]}
{"id": "C47", "title": "Cache hit returns what was stored, miss stores what was rendered", "statement": "When a fresh cache file exists its content is the output and the code is not evaluated; otherwise the code is rendered, stored under the key, and output.", "quantifier": "all cache contents, codes and environments", "why_tests_cant": "All histories of cache writes and clocks.", "anchors": ["src/bif/parse_bif_cache.rs"]}
{"id": "C48", "title": "Cache entries are never served after they expire", "statement": "An existing cache file is used only if the current time does not exceed its modification time plus the expiry. (Of what is shown this holds for the entry as a whole: a nested cache that was fresh when the outer one was stored is shown until the outer entry expires, even if its own seconds are over.)", "quantifier": "all times and expiry values", "why_tests_cant": "All clock values.", "anchors": ["src/bif/parse_bif_cache.rs: cache_file_expires"]}
{"id": "C49", "title": "Requests with different context do not share cache entries", "statement": "Two cache evaluations that differ in exactly one of the identifier, language, expiry, host, route, GET, POST, COOKIES and code have different keys, hence different cache files unless SHA-256 collides. (For several differences at once this is false, see the refuted theorem.)", "quantifier": "all pairs of requests", "why_tests_cant": "All pairs.", "anchors": ["src/bif/parse_bif_cache.rs: parse_bif_cache"]}
{"id": "C50", "title": "No cache when disabled or for requests excluded by the configuration", "statement": "With cache_disable, or with POST/GET/COOKIES data present and the corresponding cache_on_ option off, the cache bif neither reads nor writes any file and just renders its code.", "quantifier": "all codes and environments", "why_tests_cant": "Absence of effects.", "anchors": ["src/bif/parse_bif_cache.rs"]}
{"id": "C51", "title": "rand stays in its range", "statement": "{:rand; a..b :} yields an integer between a and b inclusive; if a > b it is an error; without range it has nine digits.", "quantifier": "all bounds, all random sources", "why_tests_cant": "All random outcomes.", "anchors": ["src/bif/parse_bif_rand.rs"]}
{"id": "C52", "title": "trans falls back to the text itself", "statement": "trans outputs the translation for the current language if there is a non-empty one, otherwise the text (nothing with '!').", "quantifier": "all texts and locales", "why_tests_cant": "All locales.", "anchors": ["src/bif/parse_bif_trans.rs", "src/bif/mod.rs: get_trans"]}
{"id": "C53", "title": "Definitions are accepted only where allowed", "statement": "param can be set only directly in a code block, declare only in a file whose name contains 'snippet', snippet only there or inside a snippet; elsewhere an error is recorded and nothing is defined.", "quantifier": "all contexts", "why_tests_cant": "All contexts.", "anchors": ["src/bif/parse_bif_param.rs", "src/bif/parse_bif_declare.rs", "src/bif/parse_bif_snippet.rs"]}
{"id": "C54", "title": "A disallowed modifier is always an error without effects", "statement": "A bif used with a modifier it does not accept records an error, outputs nothing and evaluates none of its content.", "quantifier": "all bifs, contents and contexts", "why_tests_cant": "All bif/modifier combinations and contents.", "anchors": ["src/bif/*.rs"]}
{"id": "C55", "title": "Comment removal deletes exactly the comments", "statement": "For any text made of literal text and well-nested comments, removing the comments gives exactly the literal text.", "quantifier": "all well-formed texts, any nesting", "why_tests_cant": "Nesting unbounded.", "anchors": ["src/utils.rs: remove_comments"]}
{"id": "C56", "title": "What comment removal leaves, and exactly when it fails", "statement": "remove_comments removes each comment up to the '*:}' at which as many comments are closed as were opened, and leaves the rest in place. A comment that is never closed takes the text before it (back to the previous comment) with it and leaves what follows its last ':'. It fails (panics) exactly when the source ends in ':' and some '{:*' in it is never closed.", "quantifier": "all sources", "why_tests_cant": "All strings.", "anchors": ["src/utils.rs: remove_comments"]}
{"id": "C57", "title": "The engine only panics for the documented reasons", "statement": "For a schema with the default shape, rendering can abort only because of the bif limit, a non-ASCII bif name, an unclosed comment, a non-string obj template, an i32 counter overflow, a date format that chrono rejects, an expiry time beyond u64 or a file that vanishes between two system calls.", "quantifier": "all templates, all schemas of the default shape, all environments", "why_tests_cant": "Absence of every other panic over all executions.", "anchors": ["src/bif/*.rs", "src/template.rs", "src/utils.rs"]}
{"id": "C58", "title": "join lists every element once, separated", "statement": "join concatenates the element texts (or keys) in order with the separator between consecutive ones.", "quantifier": "all arrays and objects", "why_tests_cant": "All lengths.", "anchors": ["src/bif/parse_bif_join.rs"]}
{"id": "C59", "title": "replace and contains use plain substring semantics", "statement": "contains holds exactly if the needle occurs in the haystack; replace replaces the non-overlapping occurrences from left to right and leaves the text between them unchanged.", "quantifier": "all texts", "why_tests_cant": "All strings.", "anchors": ["src/bif/parse_bif_replace.rs", "src/bif/parse_bif_contains.rs"]}
{"id": "C60", "title": "same holds exactly for equal texts", "statement": "same renders its code exactly if its two arguments are equal.", "quantifier": "all arguments", "why_tests_cant": "All strings.", "anchors": ["src/bif/parse_bif_same.rs"]}
{"id": "C61", "title": "FastCGI records are well formed and decodable", "statement": "Records written to PHP-FPM have the declared lengths, are padded to a multiple of eight and can be decoded back to the content; oversized content is refused.", "quantifier": "all contents", "why_tests_cant": "All lengths including boundaries.", "anchors": ["src/bif/exec_php.rs: write_record"]}
{"id": "C62", "title": "FastCGI name-value pairs decode to what was encoded", "statement": "Encoding a list of parameters and decoding it by the FastCGI rules gives the same list.", "quantifier": "all lists of names and values", "why_tests_cant": "Boundaries 127/128 and all lengths.", "anchors": ["src/bif/exec_php.rs: write_length, build params"]}
{"id": "C63", "title": "A response is read independently of how the stream is split into records", "statement": "Reading a FastCGI response returns the concatenation of the stdout contents up to the end record, for any split into records and padding.", "quantifier": "all splits", "why_tests_cant": "All fragmentations.", "anchors": ["src/bif/exec_php.rs: read_fastcgi_response"]}
{"id": "C64", "title": "neutral and noparse leave text alone", "statement": "{:neutral; ... :} outputs its own source unchanged; code with noparse outputs its content unchanged without evaluating it.", "quantifier": "all contents", "why_tests_cant": "All contents.", "anchors": ["src/bif/parse_bif_neutral.rs", "src/bif/parse_bif_code.rs"]}
{"id": "C65", "title": "eval runs its code only for non-empty results and restores __eval__", "statement": "eval renders its code exactly if its parameter part renders to non-empty text, with that text available as __eval__, and then restores the previous text of __eval__.", "quantifier": "all params and codes", "why_tests_cant": "All contents.", "anchors": ["src/bif/parse_bif_eval.rs"]}
{"id": "C66", "title": "!cache delays evaluation to every request", "statement": "{:!cache; code :} inside a cache block is stored as it is written, to be evaluated each time the page is served; outside a cache block it is evaluated in place.", "quantifier": "all codes, states and environments", "why_tests_cant": "All codes and all places.", "anchors": ["src/bif/parse_bif_cache.rs: parse_bif_cache", "src/template.rs: render"]}
{"id": "C67", "title": "A render only touches the files it may touch", "statement": "During a render a file is read or resolved only after it was found to exist, directories are made and files created and written only below the configured cache directory and only if the cache is not disabled, and external programs are run only for scripts (and virtual environments) that were found to exist, by their canonical path.", "quantifier": "all templates, schemas, environments and whole renders, including files changing between two steps", "why_tests_cant": "All templates and all behaviours of the file system.", "anchors": ["src/template.rs: render, render_once", "src/bif/parse_bif_include.rs", "src/bif/parse_bif_data.rs", "src/bif/parse_bif_locale.rs", "src/bif/parse_bif_cache.rs", "src/bif/parse_bif_obj.rs", "src/bif/parse_bif_debug.rs"]}
{"id": "C68", "title": "A PHP script's answer reaches the template exactly, through a bridge beside the script", "statement": "Calling a PHP script sends one FastCGI POST request to the configured endpoint (unix:PATH, tcp://HOST:PORT or HOST:PORT), addressed to the bridge script in the directory of the called script, whose body carries the script's path, the callback and its parameters, the schema only if it was asked for, the schema data and the virtual environment. However the peer fragments its answer, the result is the JSON value in the HTTP body of its output stream; anything but white space on its error stream, an answer that is not JSON, and an error reported by the bridge become an error. The bridge is the only file written, with a fixed content, and an existing file is never overwritten. A malformed endpoint, a failed connection or a payload over 65535 bytes is an error and nothing is sent.", "quantifier": "every script path, arguments, endpoint text, file system state, peer behaviour and fragmentation of the answer", "why_tests_cant": "the answers of a peer and the ways to cut them into records are unbounded; tests exercise a few", "anchors": ["src/bif/exec_php.rs: PhpExecutor::exec_php", "src/bif/exec_php.rs: bridge_path_for", "src/bif/exec_php.rs: parse_endpoint", "src/bif/exec_php.rs: extract_http_body"]}
{"id": "C69", "title": "data merges its values into the data of the block, or nothing", "statement": "{:data; file :} and {:data; {json} :} merge the member \"data\" of the JSON text into the local data of the current block: every leaf it mentions gets the new value, every other keeps its own; no other block, no inherited data, translation, snippet or parameter changes, and nothing is output. Text that is not JSON is an error and defines nothing; a missing file does nothing unless it is required; with ! a file is read once per block; unknown flags are an error.", "quantifier": "all files, JSON values, schemas and places", "why_tests_cant": "All values and all earlier local data.", "anchors": ["src/bif/parse_bif_data.rs: parse_bif_data"]}
{"id": "C70", "title": "locale merges its translations into those of the block", "statement": "{:locale; file :} and inline translations merge the JSON object into the translations of the current block: afterwards trans finds the new translation of a text where there is one and the earlier one elsewhere. Text that is not JSON is an error and defines nothing; a missing file does nothing unless it is required; with ! a file is read once.", "quantifier": "all files, JSON values, schemas and places", "why_tests_cant": "All translations and all earlier ones.", "anchors": ["src/bif/parse_bif_locale.rs: parse_bif_locale"]}
{"id": "C71", "title": "A parameter reads back what was set", "statement": "{:param; name :} outputs the text that the innermost enclosing block set for the name, and an empty text if none did.", "quantifier": "all names without separators, all values and nestings", "why_tests_cant": "All names and values.", "anchors": ["src/bif/parse_bif_param.rs: parse_bif_param"]}
{"id": "C72", "title": "Calling a snippet evaluates its content in place", "statement": "{:snippet; name :} (or snip) outputs the evaluation of the content stored under that name, in the scope of the caller and with the directory of the snippet's file as '#'; an undefined snippet outputs nothing.", "quantifier": "all names without separators, all contents and callers", "why_tests_cant": "All contents and callers.", "anchors": ["src/bif/parse_bif_snippet.rs: parse_bif_snippet"]}
{"id": "C73", "title": "exit sets the status and stops; moveto registers its content once", "statement": "exit sets the status code (200 if none is given), its text and its parameter and stops the render (with ! it lets the render go on); moveto registers its content under its tag, the same content registered twice is moved once, and it outputs nothing.", "quantifier": "all codes, tags and contents", "why_tests_cant": "All codes and contents.", "anchors": ["src/bif/parse_bif_exit.rs: parse_bif_exit", "src/bif/parse_bif_moveto.rs: parse_bif_moveto"]}
{"id": "C74", "title": "count counts", "statement": "Setting a counter to a number of 32 bits stores it; reading a counter outputs its number and stores the next one; a text that is not such a number is an error and leaves the counter alone; the only panic is the overflow of the largest number.", "quantifier": "all counters and numbers", "why_tests_cant": "All numbers, including the boundaries.", "anchors": ["src/bif/parse_bif_count.rs: parse_bif_count"]}
{"id": "C75", "title": "sum, lang, hash, date and flg compute what they say", "statement": "sum outputs the sum of its two numbers and is an error if one is not a number; lang outputs the language of the request; hash outputs the digest of its evaluated text, of random bytes if it is empty; date outputs the time of the single moment it reads the clock; flg leaves its words as the flags of the enclosing parameters.", "quantifier": "all arguments, states and environments", "why_tests_cant": "All arguments and states.", "anchors": ["src/bif/parse_bif_sum.rs", "src/bif/parse_bif_lang.rs", "src/bif/parse_bif_hash.rs", "src/bif/parse_bif_date.rs", "src/bif/parse_bif_flg.rs"]}
{"id": "C76", "title": "fetch outputs the frame of its event and the script once", "statement": "fetch outputs the frame of its event (auto unless it is form, none, visible or click) with id, name, wrapper, class, body and url filled in in that order; the client script is appended by the first fetch of a render only, and never if JavaScript is disabled.", "quantifier": "all arguments, bodies and states", "why_tests_cant": "All arguments and all earlier fetches.", "anchors": ["src/bif/parse_bif_fetch.rs: parse_bif_fetch"]}
{"id": "C77", "title": "debug reveals nothing unless its file opens it", "statement": "While the configured debug file does not exist, is not a file or is older than debug_expire seconds, {:debug; name :} outputs nothing and reports a fixed error, whatever its name; open, it outputs the value of the name in the schema (or, with local::, in the data of the block) as JSON, filtered with &.", "quantifier": "all names, schemas, file ages and environments", "why_tests_cant": "All ages including the boundary, and all names.", "anchors": ["src/bif/parse_bif_debug.rs: parse_bif_debug", "src/bif/parse_bif_debug.rs: debug_enable"]}
{"id": "C78", "title": "obj calls its script once with what the description says and evaluates the answer", "statement": "obj reads its description in place or from a file, evaluates the texts of file, template, venv, schema_data, fpm and (at any depth) params, calls the script at its canonical path exactly once with those parameters, the callback (main), the schema only if \"schema\" is true, the named data only if schema_data is a text, and then evaluates the answer as data, the template and the code, in this order. A missing or malformed description, an unknown engine, a missing script or virtual environment and a failing script are errors: nothing is output, and in all but the last case nothing is called.", "quantifier": "all descriptions, schemas, environments and script answers", "why_tests_cant": "All descriptions and all answers.", "anchors": ["src/bif/parse_bif_obj.rs: parse_bif_obj", "src/bif/parse_bif_obj.rs: parse_obj_values"]}
{"id": "C79", "title": "Numbers in texts follow one grammar", "statement": "Wherever a text is used as a number, it is one exactly if it follows the grammar: an array index or an expiry is an optional + and decimal digits up to 2^64-1; a counter or a bound is an optional sign and decimal digits within 32 bits; a truth value or a summand is an optional sign, digits with an optional point, an optional exponent, or inf, infinity or nan in any case, and it counts as positive exactly if its value does not round to zero, is not negative and not nan. White space is not skipped. A text is at most one number, and every number written by the library is read back as itself.", "quantifier": "all texts and numbers", "why_tests_cant": "All texts.", "anchors": ["src/utils.rs: is_bool_key", "src/utils.rs: get_from_key", "src/bif/parse_bif_for.rs: parse_bif_for", "src/bif/parse_bif_count.rs: set_count", "src/bif/parse_bif_sum.rs: parse_bif_sum", "src/bif/parse_bif_rand.rs: code"]}
{"id": "C80", "title": "What was stored is served until it expires", "statement": "When the files live on a file system (what is written is found again, the clock does not run backwards) and a cache entry has been stored, every later evaluation of the same entry within the expiry time outputs exactly what was stored and evaluates nothing, however many other interactions, renders or other entries come between, as long as nothing writes that file and no script runs.", "quantifier": "all histories of interactions, file contents, clocks, entries", "why_tests_cant": "A test runs one history; the claim is about every interleaving of other renders and file operations.", "anchors": ["src/bif/parse_bif_cache.rs: get_cache", "src/bif/parse_bif_cache.rs: set_cache"]}
{"id": "C81", "title": "A crash while an entry is stored", "statement": "If the process stops at any point of a render without scripts, every file has its old content, is empty, or has a beginning of something the render was writing to it. A process started afterwards serves, until the entry expires, exactly what was left. That this equals what an undisturbed process outputs is false: the entry is created first and written afterwards, so a crash between leaves an empty or cut entry that is served as if it were complete.", "quantifier": "all crash points, also inside a write, and all histories before and after", "why_tests_cant": "Tests do not crash between two system calls.", "anchors": ["src/bif/parse_bif_cache.rs: set_cache", "src/bif/parse_bif_cache.rs: get_cache"]}
{"id": "C82", "title": "A Python script sees the schema of its own call only", "statement": "Whatever scripts were called before in the process, and however those calls ended, a call runs at most one function, with exactly the parameters of this call, and the function sees the schema and the schema data exactly if this call hands them over, with the values of this call. If no function is run the call is an error. Otherwise the result is what the function gave back: the JSON value of the text that json.dumps writes for the object it returned; an exception, an object without a JSON text and a text that is not JSON (NaN) are errors.", "quantifier": "all histories of the process, scripts, parameters, schemas", "why_tests_cant": "Depends on what every earlier call left in the interpreter, which a test starts afresh.", "anchors": ["src/bif/exec_python.rs: execute_python_callback", "src/bif/exec_python.rs: prepare_python_params", "src/bif/exec_python.rs: convert_python_result_to_json"]}
{"id": "C83", "title": "The script that a template names is the one that runs", "statement": "Each call of a Python script runs the function of the file that the template names. This is false of the code: modules are found by the bare file name, along all directories used so far, and are kept for the life of the process, so of two scripts with the same base name in two directories only the first one ever runs. It holds for every life of a process in which no directory searched has another file of the same name and scripts do not tamper with the interpreter.", "quantifier": "all lives of a process: any number of calls of any scripts", "why_tests_cant": "The wrong script runs only after another one was called in the same process; tests call one script per process.", "anchors": ["src/bif/exec_python.rs: setup_python_path", "src/bif/exec_python.rs: extract_module_name", "src/bif/exec_python.rs: execute_python_callback"]}
{"id": "C84", "title": "The virtual environment and the search path of Python scripts", "statement": "A venv that does not exist is an error and nothing else happens. The venv of the first call of a process determines the environment variables with which the interpreter is started; the venv of every later call changes nothing a script can observe. Every call adds its directory to the search path, which never shrinks. Every failure of a script is reported with the name of its callback.", "quantifier": "all histories of the process, venvs, scripts", "why_tests_cant": "The effect depends on whether the interpreter was started by an earlier call.", "anchors": ["src/bif/exec_python.rs: setup_venv", "src/bif/exec_python.rs: exec_py", "src/bif/exec_python.rs: setup_python_path"]}
{"id": "C85", "title": "The answer of a script is data", "statement": "If the text of the answer of a script contains neither {: nor :}, its member data becomes local data of the block of the obj bif (nothing else: schema and file accesses are unchanged), and then the template and the code of the bif are evaluated in that state. (That the answer is only ever data is false for other answers: C78.)", "quantifier": "all scripts, answers, templates, states", "why_tests_cant": "The answer is spliced into the template as source text; a test sees only the answers of its script.", "anchors": ["src/bif/parse_bif_obj.rs: parse_bif_obj", "src/bif/parse_bif_data.rs: parse_bif_data"]}
{"id": "C86", "title": "A source in two parts is evaluated part by part", "statement": "If a well-formed source is cut between two of its items, its evaluation is that of the first part followed, in the state the first part leaves, by that of the second; the outputs are concatenated (and trimmed once at the end). If the first part exits, the second contributes nothing.", "quantifier": "all well-formed sources, all cuts, all states", "why_tests_cant": "Every source and every position of the cut.", "anchors": ["src/block_parser.rs: BlockParser::parse_with_modifiers"]}
{"id": "C87", "title": "The order of the modifiers does not matter", "statement": "Outside a cache block, two bifs that differ only in the order (or repetition) of their modifiers evaluate alike: same output, same state, same interactions, same errors. Only the source quoted by an error line of the bif itself differs. (neutral outputs its own text and is excluded.)", "quantifier": "all bifs, bodies, modifier lists with the same members, states, environments", "why_tests_cant": "All permutations of all modifiers over all bifs and states.", "anchors": ["src/bif/mod.rs: Bif::parse", "src/bif/mod.rs: Bif::extract_params_code"]}
{"id": "C88", "title": "White space around the parts of a bif does not matter", "statement": "Outside a cache block, white space before and after the body of a bif, and around its parameters and its code, changes nothing of its evaluation but the source quoted by an error line of the bif itself. (neutral outputs its own text; the bifs without parameters, such as coalesce, read the body whole, for them the claim is about the body.)", "quantifier": "all bifs, parameters, codes, white spaces, states, environments", "why_tests_cant": "All layouts of all bifs.", "anchors": ["src/bif/mod.rs: Bif::extract_params_code", "src/utils.rs: get_code_position"]}
{"id": "C89", "title": "Any character can delimit the arguments", "statement": "The first character of the parameters delimits the arguments: whichever character (of any length in UTF-8, not white space, not occurring in the arguments) is chosen, the arguments are the texts between the delimiters, and same, contains, replace, cache, fetch, join and sum evaluate alike: same output, state and interactions, only the source quoted by an error line of the bif itself differs.", "quantifier": "all delimiters, argument lists, codes, states, environments", "why_tests_cant": "All pairs of delimiters, all arguments.", "anchors": ["src/bif/mod.rs: extract_args", "src/bif/parse_bif_same.rs: parse_bif_same", "src/bif/parse_bif_join.rs: parse_bif_join"]}
{"id": "C90", "title": "The page is the content without the marks", "statement": "The page a successful render returns is its content with the moved contents in place, without the marks that ^ writes, each taken away together with all the white space directly before it (and none after it), and then without the marks of silent bifs; nothing else of the content changes. So a bif with ^ continues the text before it however much white space lies between.", "quantifier": "all contents, any number of marks at any places, all Unicode white space", "why_tests_cant": "All contents and all arrangements of marks and white space.", "anchors": ["src/template.rs: Template::replacements", "src/bif/mod.rs: Bif::parse_bif", "src/constants.rs: BACKSPACE, UNPRINTABLE"]}
{"id": "C91", "title": "The bif limit only stops evaluations", "statement": "Whatever evaluates successfully with some limit of bifs gives the same output and the same state with any larger limit; with a smaller limit an evaluation has the same result (or the same panic) or is stopped by the limit. No bif can observe the limit.", "quantifier": "all sources, states, environments, limits", "why_tests_cant": "All sources and all pairs of limits.", "anchors": ["src/bif/mod.rs: Bif::new", "src/shared.rs: Shared::new (bisf_max)"]}
{"id": "C92", "title": "A page depends on the world only through the recorded interactions", "statement": "Every question a render asks to the world (files, clock, random numbers, scripts) is an interaction; in any other world that gives the same answers to these questions the render has the same result and asks the same questions again. So files that it does not ask about have no influence, and a page without interactions is the same everywhere and at all times.", "quantifier": "all templates, schemas, worlds", "why_tests_cant": "Quantifies over all worlds, including those where any other file, clock or script is different.", "anchors": ["src/bif/*.rs: every call of std::fs, SystemTime, rand, exec_py, exec_php", "src/template.rs: Template::render"]}
{"id": "C93", "title": "What happens inside PHP when a template calls a PHP script", "statement": "If the peer is PHP-FPM running the bridge script: the three global variables are set, the script named by the template is loaded at most once, and its callback is called at most once, after that, with the parameters of the call (no parameters are an empty array); the schema and its data are null unless they were handed over; nothing else is loaded or called. The caller gets the callback's result as JSON, or an error that names the first step that failed (script missing, load failed, callback missing, callback failed, result not JSON); whatever the script prints by itself is put before the answer.", "quantifier": "all calls, scripts, callbacks, results, ways in which the peer cuts its answer into records, worlds", "why_tests_cant": "Runs over two languages and a network protocol, all scripts and all failures.", "anchors": ["src/bif/exec_php.rs: BRIDGE_SCRIPT", "src/bif/exec_php.rs: PhpExecutor::exec_php"]}
{"id": "C94", "title": "clean-cache removes only what has expired", "statement": "The script clean-cache removes only regular files HASH-SECONDS in directories of three hexadecimal digits of a directory whose name contains neutral-cache, and such directories when everything in them was removed; otherwise it refuses. An entry whose seconds are written without leading zeros is removed exactly when they have passed; then the engine would serve it no more, except in that very second. (That no entry is removed while it would be served is false for leading zeros: bash reads 0300 as octal. An entry with a sign, /+60/, is never removed. A render that runs at the same time may find its entry removed between two steps and output nothing for a block without bifs.)", "quantifier": "all directories and file names, clocks, ages, arguments", "why_tests_cant": "All directory trees, names and ages; the boundary and the two readings of a number are met by few of them.", "anchors": ["cache-utils/clean-cache", "src/bif/parse_bif_cache.rs: cache_file_expires", "src/bif/parse_bif_cache.rs: get_cache_dir"]}
{"id": "C95", "title": "Words and arguments are cut in one way only", "statement": "Every text has exactly one list of words, in order: what is between white space (any Unicode white space), without empty ones. The arguments of a bif are what is between the occurrences of the first character of its parameters, in order, numbered from 1, empty ones included; put together again with that character they are the parameters.", "quantifier": "all texts, all Unicode white space, delimiters of any length in UTF-8", "why_tests_cant": "All texts.", "anchors": ["src/bif/mod.rs: extract_args", "src/bif/parse_bif_each.rs: parse_bif_each", "src/bif/parse_bif_for.rs: parse_bif_for"]}
{"id": "C96", "title": "Missing and malformed arguments are reported, and nothing else happens", "statement": "same, contains, replace, sum, fetch, join, cache, each, for and rand with too few arguments, with an argument that is not a number where one is needed, or (each, for) with code whose bifs are not balanced, write nothing and record exactly one error, whose message says what is missing; apart from that the state is the one after the evaluation of the arguments: the code is not evaluated, no variable is changed, nothing is stored.", "quantifier": "all bodies, argument lists, modifiers, states, environments", "why_tests_cant": "All argument lists, all evaluations of arguments.", "anchors": ["src/bif/parse_bif_each.rs: parse_bif_each", "src/bif/parse_bif_for.rs: parse_bif_for", "src/bif/parse_bif_rand.rs: parse_bif_rand", "src/bif/parse_bif_join.rs: parse_bif_join", "src/bif/parse_bif_cache.rs: parse_bif_cache", "src/constants.rs: BIF_ERROR_*"]}
{"id": "C97", "title": "Unknown bifs, unknown flags and their error lines", "statement": "A bif whose name is in no table, or with a flag that it does not have, writes nothing and is recorded as exactly one error, and its code is not evaluated; a bif without ; likewise. The line of an error is [time] Error (bif) message file~: (file) src: source, on one line; apart from it, the state is the one in which the bif has failed.", "quantifier": "all names, flags, bodies, modifiers, states, environments", "why_tests_cant": "All names and all flags.", "anchors": ["src/bif/mod.rs: Bif::parse", "src/bif/parse_bif_unknown.rs: parse_bif_unknown", "src/bif/parse_bif_allow.rs: parse_bif_allow", "src/bif/parse_bif_code.rs: parse_bif_code"]}
{"id": "C98", "title": "JSON text is read and written as RFC 8259 says", "statement": "A schema, inline data, a data file, a locale or an object description is accepted exactly if its text is a JSON text (RFC 8259) with at most 127 nested containers, and then means the value the grammar gives it; of a repeated key the last value counts, at the first place. What either printer writes of a value is a JSON text of that value unless the value is nested deeper; different values are written differently; what has been read is read back when it is written, unless it has floats that are not (C109). So a schema given as text does what the value does, two requests with different values of GET, POST or COOKIES have different cache keys, debug shows a text that can be read, and an answer whose strings contain neither {: nor :} is data for the template.", "quantifier": "all texts, all values, all depths; the value of numbers with a fraction, an exponent or more than 64 bits is a parameter here (see C109)", "why_tests_cant": "All texts and all values.", "anchors": ["src/template.rs: merge_schema_str, merge_schema_path", "src/bif/parse_bif_data.rs: parse_bif_data", "src/bif/parse_bif_locale.rs: parse_bif_locale", "src/bif/parse_bif_obj.rs: parse_bif_obj", "src/bif/parse_bif_cache.rs: parse_bif_cache", "src/bif/parse_bif_debug.rs: parse_bif_debug", "Cargo.toml: serde_json"]}
{"id": "C99", "title": "The client script requests what the classes say and puts the answer where it belongs", "statement": "On a page with the script of {:fetch;, whatever is clicked, submitted, scrolled into view, answered or fails, in any order: an element that arrives (with the page or with an answer) with the class neutral-fetch-auto is requested exactly once, one with neutral-fetch-click once per click on it or in it, one with neutral-fetch-visible the first time it comes into view and never again, a form with neutral-fetch-form once per submission; nothing else is requested, every request goes to the element's own URL. The answer takes the place of the target (the element, or the one with the id it names) and changes nothing else; after a failure the target is emptied, a form kept; if the target is gone or there is none, the document does not change.", "quantifier": "all pages, all schedules of clicks, views, submissions, delays, answers and failures, all answers", "why_tests_cant": "The schedule is chosen by the user and the network.", "anchors": ["src/constants.rs: NEUTRAL_JS (neutral_fetch, neutral_obs, neutral_fev)"]}
{"id": "C100", "title": "Forms sent by the client script", "statement": "A form whose buttons are submit buttons has at most one request under way; while it is under way the buttons are disabled and show the loading text, after a failure the error text, and then again what they showed at first. (If the answer goes elsewhere and leaves the form, it can never be submitted again; if the form is submitted by a script while a request is under way, the text is lost.) Without a file field a form sends every successful control with its values; with a file field every other field whose name has no [] is sent once more, disabled fields and buttons included.", "quantifier": "all button texts, all schedules of submissions, answers, failures and restorations; all lists of controls", "why_tests_cant": "All schedules.", "anchors": ["src/constants.rs: NEUTRAL_JS (neutral_fetch_form)"]}
{"id": "C101", "title": "The settings of a render", "statement": "Everything a render works with is what the schema says at its start and stays so until its end: the two limits config.infinite_loop_max_bifs and config.debug_expire are those numbers; each switch (filter_all, cache_on_post, cache_on_get, cache_on_cookies, cache_disable, disable_js) is on exactly if its value is true in the sense of C21; comments, cache_prefix, debug_file and the language are the texts found (the cache directory is the temporary directory if that is empty). If one of the two limits is not a natural number, every render of a template with a bif aborts; if config.error.show is neither true nor false, the first failing bif aborts the render instead of being reported.", "quantifier": "all schemas, templates, environments", "why_tests_cant": "All schemas.", "anchors": ["src/shared.rs: Shared::new", "src/template.rs: init_render", "src/bif/mod.rs: Bif::parse"]}
{"id": "C102", "title": "Histories of API calls", "statement": "After any history of calls on a new template (set_src_str, set_src_path, merge_schema_value/str/path/msgpack/msgpack_path, render, render_once) the source is the last one set, the path the last one given (even if the file could not be read) and the schema the default one updated with the merged values in their order; a call that fails returns the error and changes nothing else; render_once gives the schema away. Only calls that name a file touch the file system, by one read. A call aborts exactly when it merges a value that is neither an object nor null. As long as the merged values keep the types of the settings, a render aborts only for the reasons of C57. from_file_value is new + set_src_path + merge_schema_value, and empty MessagePack data stands for {}. Two histories with the same merges in the same order and the same last source and path render alike.", "quantifier": "all histories of calls, all file systems and decoders", "why_tests_cant": "All histories.", "anchors": ["src/template.rs: Template::new, from_file_value, from_file_msgpack, set_src_path, set_src_str, merge_schema_*"]}
{"id": "C103", "title": "Schemas as MessagePack", "statement": "Bytes are accepted as a schema exactly if they begin with one MessagePack value of at most 1023 nested containers made of nil, booleans, integers, floats (NaN and the infinities become null), UTF-8 strings, arrays and maps with string keys (a second or later key may also be binary data that is a text; of a repeated key the last value counts); binary data, extensions and the unused marker are refused. The value and its end are unique: data cut short anywhere is refused, bytes after the value are ignored. A value written by to_vec is read back as itself, and different values are written differently. Merging packed data does exactly what merging the value, or any JSON text of it, does; refused data changes nothing. from_file_msgpack takes empty data as {}, merge_schema_msgpack refuses it.", "quantifier": "all byte strings, all values, all templates", "why_tests_cant": "All byte strings.", "anchors": ["src/template.rs: from_file_msgpack, merge_schema_msgpack, merge_schema_msgpack_path", "doc/msgpack.md"]}
{"id": "C104", "title": "The public text helpers", "statement": "strip_prefix_suffix takes the prefix and the suffix away together: if the text is prefix, middle, suffix it returns the middle, otherwise (also when prefix and suffix would overlap) the text unchanged. find_tag_position returns the position before the first occurrence of a closing tag, or after the first > following the first occurrence of an opening tag, and nothing exactly if there is no such place.", "quantifier": "all texts, prefixes, suffixes and tags", "why_tests_cant": "All texts.", "anchors": ["src/utils.rs: strip_prefix_suffix, find_tag_position"]}
{"id": "C105", "title": "The connection to the PHP server", "statement": "However the answer of the PHP server is cut into pieces, delayed below the time-out and interrupted by signals, and however the request is taken in parts, the call gives the same result as if everything had come at once. If the connection breaks or stalls for five seconds, a value is returned only if the end record of the answer had already come; otherwise the call reports the failure. What reaches the server is the whole request, or a proper beginning of it if an error is reported; a request that is too large is given up before any of its body is sent. Every wait is limited to five seconds, but a call as a whole is not: a peer that sends a byte every few seconds can hold it as long as it likes.", "quantifier": "all schedules of reads and writes (pieces, delays, signals, errors), all requests and answers", "why_tests_cant": "The splitting of reads and writes and the moment of a failure are chosen by the network; tests see a few.", "anchors": ["src/bif/exec_php.rs: exec_php, connect_endpoint, send_fastcgi_request, read_fastcgi_response, write_record, FpmStream"]}
{"id": "C106", "title": "Script objects end to end", "statement": "PHP: if the template describes a PHP object, PHP-FPM serves the bridge and the connection does not fail, then what the callback returns is exactly what the block of the object sees, however the request and the answer were cut into pieces on the way: the JSON text of the returned value, read back, is the answer whose data member becomes the data of the block. If the connection breaks or stalls before the answer is whole the bif fails with the reason, and nothing of the answer is used. Python: all calls of all renders are made in one process, each in the state that the calls before it left; if a function is run, what it returns is what the block of the object sees (not always the function of the file that the object names: of two scripts with one name the first answers for both).", "quantifier": "all templates, states, objects, scripts, callbacks, histories of the process and schedules of the connection", "why_tests_cant": "Needs a PHP server and a network that cuts and fails at every point, and processes of any age.", "anchors": ["src/bif/exec_python.rs: exec_py", "src/bif/parse_bif_obj.rs: parse_bif_obj", "src/bif/exec_php.rs: exec_php", "src/bif/exec_php.rs: BRIDGE_SCRIPT"]}
{"id": "C107", "title": "The digests of the cache, of hash and of moveto", "statement": "The name of a cache entry is the SHA-256 digest of its key, and the output of {:hash;} and the name under which {:moveto;} registers its content are MD5 digests, exactly as FIPS 180-4 and RFC 1321 define them, for texts of every length: 64 and 32 lower-case hexadecimal digits. Hence no rendering aborts because a digest is too short to cut, every entry lies two levels below the cache directory, all machines name the entry of a key alike, the sweep recognises every entry, and two evaluations that differ in one part of the key meet in one file only if their keys collide in SHA-256.", "quantifier": "all texts (of any length), states, keys and machines with these digests", "why_tests_cant": "A test compares a few vectors; the shape and the agreement with the standard must hold for every text, and the consequences for every template.", "anchors": ["src/bif/parse_bif_hash.rs: parse_bif_hash", "src/bif/parse_bif_cache.rs: parse_bif_cache, get_cache_dir", "src/bif/parse_bif_moveto.rs: moveto"]}
{"id": "C108", "title": "The numbers of {:sum;}", "statement": "{:sum; /x/y/ :} reads its arguments as IEEE 754 double precision numbers (nearest, ties to even; decimal with optional point and exponent, inf, infinity, nan), adds them with one rounding and prints the shortest decimal that is read back as the same number, without exponent, superfluous zeros or '+'. Hence the text of a sum can always be fed to another sum without loss; integers below 2^53 are added exactly, however many, and printed the usual way; otherwise a sum differs from the exact one by at most its 2^53rd part; the order of two arguments does not matter (that of three does). A text that stands for a number is true in a condition exactly if the number is positive.", "quantifier": "all texts, numbers, states and templates", "why_tests_cant": "There are 2^128 pairs of numbers and infinitely many texts of each; the dangerous ones (ties, subnormals, overflow, shortest digits) are not the ones tests try.", "anchors": ["src/bif/parse_bif_sum.rs: parse_bif_sum", "src/utils.rs: is_bool_key"]}
{"id": "C109", "title": "The floating-point numbers of JSON", "statement": "A number of a schema, inline data, a data file, a locale or an object description that has a fraction, an exponent or more than 64 bits is shown as the shortest decimal of a double precision number: with a point and digits on both sides, or with an exponent if it is less than 0.00001 or not less than 10^16; never as an integer, and with the sign it was written with. With at most 15 digits (and a power of ten between -22 and 22) it is shown as the number that was written; below 2^53 it is the nearest double; otherwise it may be another one: it differs from the number written by at most its 2^49th part (unless it is less than 2^-1020). It is refused only if it is 2^1024 or more, up to that error. It counts as true in a condition exactly if it is positive. Two values that were read are written alike only if they are the same value. But what is shown need not be read as the same number: 8000000000000020.0 is read, and shown, as 8000000000000019.0; numbers of less than 2^53 (without point) are read as themselves.", "quantifier": "all number tokens", "why_tests_cant": "There are 2^64 doubles and infinitely many tokens; the tokens that are read inexactly are those with 16 and more digits, one in a few hundred of them, and no test of the project has one.", "anchors": ["Cargo.toml: serde_json (without float_roundtrip)", "src/template.rs: merge_schema_str, merge_schema_path", "src/utils.rs: get_from_key, is_bool_key", "src/bif/parse_bif_data.rs: parse_bif_data"]}
{"id": "C110", "title": "What the host reads after a rendering", "statement": "After any sequence of API calls the status text that the host reads is the reason phrase of the status code that it reads: the standard one for a known code, empty for any other, \"OK\" for the 200 of a template never rendered; rendering a text without bifs leaves the reported status as it was. A rendering that ends with a status that is neither an error nor a redirection gives the page, or exactly one of the four scripts that reload or lead to another page, never a mixture.", "quantifier": "all histories of API calls, all templates and environments", "why_tests_cant": "The code and the text are stored separately and are set by exit, redirect, unbalanced templates and every new rendering; only an invariant over all executions shows that they never get out of step.", "anchors": ["src/template.rs: get_status_code, get_status_text, get_status_param, set_status_code", "src/shared.rs: Shared::new", "src/bif/parse_bif_exit.rs", "src/bif/parse_bif_redirect.rs", "src/constants.rs: REDIR_JS_*"]}
{"id": "C111", "title": "The floats of MessagePack", "statement": "A float of four or eight bytes in a schema given as MessagePack is the IEEE 754 number of these bytes and is shown as the shortest decimal of that number, in the form of C109; NaN and the infinities become null. Every double precision number can be given in exactly one way as eight bytes and different ones are shown differently, so unlike in JSON text no number is changed on the way; a float of four bytes is shown as the double of the same value (so the single nearest to 0.1 is not shown as 0.1). A schema read from JSON text and packed by to_vec, or read from MessagePack and packed again, is read back as the same value, and merging it has the same effect as merging the JSON text.", "quantifier": "all floats of four and eight bytes, all JSON texts, all MessagePack data, all templates", "why_tests_cant": "There are 2^64 + 2^32 words, and the rare ones (subnormals, signed zero, numbers that JSON text does not bring across) are not the ones tests try.", "anchors": ["src/template.rs: merge_schema_msgpack, merge_schema_msgpack_path, from_file_msgpack", "Cargo.toml: rmp-serde, serde_json", "doc/msgpack.md"]}
{"id": "C112", "title": "The dates of {:date;}", "statement": "{:date; format :} shows the time of the call (UTC) in the format: every character that does not follow a % is shown as it is, and each % with its letter shows what the format's documentation says (year, month, day, weekday, the three week numberings, hours, minutes, seconds, names, composite forms), with dates by the Gregorian calendar, in which every day since 1970 has exactly one date. Whether a format is accepted depends on the format alone, never on the time; a format with a % before a character that means nothing, or at its end, is refused, and refusing a format aborts the render (panic). Times shown in the format %Y-%m-%d %H:%M:%S sort as texts in the order of time, and different seconds are shown differently. Without a format, or with %s, the seconds since 1970 are shown in decimal.", "quantifier": "all times before the year 10000, all formats, all modifiers without & ! +, all states", "why_tests_cant": "A test sees a handful of days; leap centuries, ISO years that begin in December and the formats nobody tried are reached years later.", "anchors": ["src/bif/parse_bif_date.rs: parse_bif_date", "doc/bif-date.md", "Cargo.toml: chrono"]}
