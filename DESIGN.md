# Design of the formal model of neutralts

## Shape of the model

* Strings are byte lists (`list ascii`): the UTF-8 bytes of a Rust `str`.
* JSON values are `serde_json::Value` with `preserve_order`: objects are association lists in
  insertion order; `Index`/`IndexMut` (including its panic) are modelled explicitly.
* Pure functions of `utils.rs` are transcribed one by one to total Gallina functions.  A Rust
  panic is an explicit error value (`Panic reason`).
* The engine (`Shared`, `BlockInherit`, `BlockParser`, `Bif` and one function per
  `parse_bif_*.rs`) is a state/error monad.  Nested parsing is a parameter of each handler;
  the knot is tied by a fixpoint on fuel whose exhaustion is a distinct result, proved
  unreachable from the bif limit (C26).
* Everything outside the process (file system, clock, random numbers, external programs) is an
  oracle that may depend on the whole history of the interactions so far; every interaction is
  logged in a trace inside the state, so theorems quantify over every environment and can
  speak about which files were touched.
* md5, sha256 (see C107), Unicode lower-casing, serde_json parsing/printing (see C98, C109), float addition (see C108), `Path::parent`
  and date formatting are unspecified functions (fields of the environment record `Env`, over
  which every theorem quantifies).  Nothing is assumed about them unless a theorem says so in
  its hypotheses (C49: sha256 injective on the texts concerned; C51: the random source respects
  its bounds; C63 none).

## Files

| file | content |
|------|---------|
| `Bytes` | byte strings, `find`, `replace`, `split`, `trim`, UTF-8 characters, decimal numbers |
| `Json` | `serde_json::Value`, `Index`, `IndexMut`, JSON pointers |
| `Utils` | `/repo/src/utils.rs` |
| `ConstantsGen` | `/repo/src/constants.rs`, `default_json.rs` (generated text, by hand-run script) |
| `State` | `Shared`, `BlockInherit`, `Bif`, the environment, the monad |
| `Engine` | `bif/mod.rs`, `block_parser.rs`, `macros.rs` and all `parse_bif_*.rs` |
| `Template` | `template.rs`, `Shared::new` |
| `FastCgi` | codec of `bif/exec_php.rs` |
| `PhpExec` | the rest of `exec_php` (endpoint, bridge file, payload, answer) |
| `Digest` | MD5 and SHA-256 (crates md-5 and sha2), in hexadecimal |
| `Socket` | the calls of read and write under `exec_php` (read_exact, write_all, time-outs) |
| `PhpBridge` | the PHP program embedded in `exec_php.rs` |
| `PyExec` | `exec_python.rs` |
| `JsonText` | serde_json (a dependency): reader and printers, from its documentation |
| `MsgPack` | rmp_serde (a dependency): from_slice and to_vec for a Value, from its documentation |
| `PackFloat` | rmp (a dependency): f32 and f64 in MessagePack; serde_json's Number::from_f64 |
| `DateFmt` | chrono (a dependency): StrftimeItems, DelayedFormat, NaiveDate; as used by parse_bif_date |
| `ClientJs` | constants.rs 356-487, NEUTRAL_JS: events, requests, replacing |
| `ClientForm` | constants.rs 400-451, neutral_fetch_form: buttons, body |
| `CleanCache` | the bash script `cache-utils/clean-cache` |
| `Spec`, `SpecEngine`, `SpecPhp` | the vocabulary of the theorem statements (no proofs) |
| `*Proofs`, `*Frames`, `FrameRun`, `BytesFacts` | lemmas |
| `Samples` | concrete environments and templates for the examples |
| `Properties*` | the theorems `Cnn_*`, each with examples that meet its hypotheses |

## Proof plan per property

| id | modelled by | proof |
|----|-------------|-------|
| C01-C04 | `wildcard_match`, `bif_allow` | equivalence with an inductive relation; induction on pattern/text |
| C05-C09 | `escape_chars`, `unescape_chars`, `filter_value`, `filter_value_keys`, `init_render` | induction on strings / JSON values |
| C10, C11 | `bif_var`, `bif_code` | occurrence lemmas for `replace` and `escape` |
| C12-C15 | `merge_schema`, `merge_schema_owned`, `update_schema` | induction on JSON; path-lookup specification |
| C16-C19, C55, C56 | `extract_blocks`, `get_code_position`, `remove_comments` | loop invariants; print of a template syntax tree as specification; C56: invariant of the scan (depth = opens - closes), specification is a relation, proved functional |
| C20, C21 | `resolve_pointer`, `is_*_key` | step-by-step path specification |
| C22-C25, C33, C46, C54, C59, C60, C64, C65 | handlers, `run_blocks` | symbolic evaluation of the handlers |
| C26, C31, C32, C42, C57 | whole engine | one generic preservation theorem over all handlers (`frame`), instantiated |
| C27 | `render` cache loop | measure on the cache passes; refuted in general by a witness for every number of rounds |
| C28-C30 | `create_block_schema`, `update_indir`, `drop`, child parse | depth-indexed store invariant through the generic theorem |
| C34-C36 | `bif_each`, `bif_for` | induction on the collection / range; witness for C36 |
| C37-C39 | `contains_allow`, `bif_var`, `bif_include`, `bif_data`, `bif_locale` | trace unchanged |
| C40-C45 | `template.rs` functions | case analysis; list lemmas |
| C47-C50, C66 | `bif_cache` | symbolic evaluation against the oracle; witness for C49 |
| C51-C53, C58 | handlers | case analysis, range hypothesis on the random oracle |
| C61-C63 | FastCGI codec of `exec_php.rs` | decoder specification, round trip |
| C67 | all handlers, `render`, `render_once` | a discipline on the interaction trace, kept by every step (`tok`) |
| C68 | `exec_php` | case analysis over an arbitrary peer, composed with C61/C63 |
| C69–C70 | `bif_data`, `bif_locale` | equations for `eval_bif` composed with the merge theorems (C16) and the block store |
| C71–C76 | `bif_param`, `bif_snippet`, `bif_exit`, `bif_moveto`, `bif_count_`, `bif_sum`, `bif_lang`, `bif_hash`, `bif_date`, `bif_flg`, `bif_fetch`, `bif_replace` | equations for `eval_bif` (`prepared`, `arguments`, `eval_code`) |
| C77–C78 | `bif_debug`, `debug_enable`, `bif_obj`, `parse_obj_values`, `check_venv` | equations for `eval_bif`; `obj` in stages (description, texts, call, answer), texts by induction over the description |
| C79 | `parse_unsigned`, `parse_i32`, `f64_gt0` (std `parse`), `dec_N`, `dec_Z` | equivalence with an inductive grammar (`decimal`, `integer_text`, `float_text` of Spec.v), by induction over the digits; every other theorem about numbers uses the grammar |
| C80 | `bif_cache` over an environment that answers from a file system (`lives_on` of SpecDisk.v: disk and clock as functions of the interactions so far) | induction over the interactions that do not touch the file, then C47 |
| C81 | the same, and a crash (`left_on`): between two interactions, or in the middle of a write | induction over the interactions of the render; full claim refuted, what is left and served proved |
| C82 | `exec_py` and its parts (PyExec.v): sys.path, sys.modules, module attributes as state of the process; module bodies and callbacks unspecified | each part only loads modules (`quiet`); what the module has after `hand_over`; composition |
| C83 | the same; a life of a process as a sequence of calls | invariant over the life: every loaded script module is the file named by its calls; full claim refuted |
| C84 | `setup_venv`, Python::initialize, `setup_python_path` | case analysis; invariant over the life for the search path |
| C85 | `parse_bif_obj`: the answer spliced into the source, `parse_bif_data` inline | the inserted block is recognised as the first block (shift lemma), then C75, C69, C78 |
| C86 | `parse_with_modifiers` on a concatenation of items | induction on the items of the first part |
| C87 | every handler, run with two modifier lists with the same members | one lemma per handler: the two runs are in step (`tsim`), the only field read that differs is the quoted source |
| C88 | every handler, run with two layouts of the same body | same relation, with the two sources equal after splitting and trimming; uniqueness of the trimmed text |
| C89 | `extract_args` and the bifs that use it, run with two delimiters | `split` of a text written with a delimiter (UTF-8 self-synchronisation); relational lemma per handler |
| C90 | the last stage of a render (`replacements`) | spec `page` (SpecPage.v): `uplined` relation by first occurrence, then `replaced`; the scan is shown equal to trimming the text before each first mark |
| C91 | `bif_run`, the whole engine run twice with two limits | relational lemma per primitive and handler (`rsim`, ReplayProofs.v), induction on fuel; panics included |
| C92 | the whole engine run in two worlds | the same relational lemmas: the new events of the first run are answered truly by its world, and if the second world answers them too, it has the same result |
| C93 | the bridge script as a PHP program over an unspecified PHP (PhpBridge.v), composed with the model of exec_php | case analysis of the script, FastCGI round trip of C68 |
| C94 | the bash script clean-cache over unspecified directories, with bash's reading of numbers (CleanCache.v) | characterisation of each test of the script; composition with the freshness of entries (C80) |
| C95 | split_whitespace, extract_args | relations `words` and `pieces` in Spec.v, proved total, deterministic and equal to the functions |
| C96 | argument checks of the handlers of same, contains, replace, sum, fetch, join, cache, each, for, rand | symbolic execution of the handlers up to the failing check, with the literal messages |
| C97 | dispatch of unknown names, flag checks, error lines | symbolic execution; the error line as a literal text |
| C98 | serde_json's reader and its two printers (JsonText.v) against the grammar of RFC 8259 (SpecJson.v) | soundness and completeness by mutual induction on derivations / on fuel; printing by induction on the value; then corollaries for C12, C49, C77, C85 |
| C99 | NEUTRAL_JS: document as a forest of elements, listeners, observer, timers, pending requests (ClientJs.v); schedules in SpecClient.v | invariant over the schedule (ClientInv.v): per element, the requests sent are what its classes and the events ask for |
| C100 | neutral_fetch_form: the buttons as a state machine, the body as lists of pairs (ClientForm.v) | invariant with four phases; the body per control; doubled fields and lost button texts stated |
| C101 | shared_new and its use by init_render (Template.v) | every field against the schema (SpecApi.v `configured`), constant by the frame of the evaluation |
| C102 | the public functions of Template (Template.v) | outcomes of calls (SpecApi.v), induction over the history; merging harmless values keeps the shape C57 needs |
| C103 | rmp_serde's reader and writer for a Value (MsgPack.v) against the MessagePack format (SpecPack.v) | soundness by induction on fuel, completeness and uniqueness by mutual induction on derivations, writing by induction on the value |
| C104 | strip_prefix_suffix, find_tag_position (Utils.v) | decomposition lemmas of strip_prefix/strip_suffix; uniqueness of `place` |
| C105 | reads and writes of the socket as arbitrary schedules of pieces, signals, delays and errors (Socket.v), std's read_exact and write_all | the schedule refined to the byte stream of C63 by induction on fuel; failures by case analysis of each round; writes by a composable "all or a proper prefix" relation; time by a potential |
| C106 | nothing new: the obj bif (Engine), exec_php, the bridge and the socket together; exec_py in one process for all renders (PropertiesScriptPy) | composition of C78, C93 and C105; of C78, C82 and C92 |
| C107 | MD5 and SHA-256 with padding, blocks and hexadecimal digits (Digest.v, after the crates md-5 and sha2) | the standards as relations (SpecDigest.v): arithmetic on words, constants from roots of primes, uniqueness; then the hypotheses of C47-C49, C57, C80, C94 about digests hold |
| C108 | f64 of Rust: `str::parse`, `+` and `to_string` (Float64.v) as used by parse_bif_sum.rs; finite numbers are a sign and a multiple of 2^-1074 | rounding, reading, adding and printing as relations (SpecDouble.v: nearest double, ties to even; shortest decimal read back, nearest of these); uniqueness and agreement of the functions (DoubleProofs.v, DoubleShow.v); integers, error and engine level from the relations |
| C109 | serde_json's reading of numbers that are no 64-bit integers (significand of 64 bits, one multiplication or division by a power of ten of the table, f64_from_parts) and ryu's printing (JsonFloat.v) | the decimal of a token, the printed form and the error as relations over integers (SpecJsonFloat.v); error by composing relative errors of at most three roundings and the truncation; digits because decimals of 15 digits are farther apart than doubles; `C109_drift` shows what is not true |
| C110 | `shared_new`, `bif_exit`, `bif_redirect`, `handle_unmatched`, `set_status_code`, the API calls of C102 (PropertiesStatus.v; SpecStatus.v: `phrase`, SpecHost.v: `leads`) | a frame instance: every primitive effect of the engine on the status sets the text of the code, every redirection script is one of the four; induction over the histories of C102 |
| C111 | rmp's read_f32/read_f64/write_f64 and Number::from_f64 (PackFloat.v) against the binary formats of IEEE 754 (SpecPackFloat.v: `ieee`, `float_word`) | existence and uniqueness of the fields of a word by division; each word is a double, so C109's printing lemmas apply; packing read_f64 of a printed number gives its word; whole values by induction on JSON and MessagePack derivations, then C103_round_trip |
| C112 | chrono's format items, padding, calendar and week numbers (DateFmt.v) against a calendar counted day by day and a table of what each letter shows (SpecDate.v: `falls_on`, `next_day`, `in_format`) | the closed-form calendar equals the day-by-day one by induction on days; each item by case analysis on its letter; format by induction on its length; refusal by independence of the item's rest from the time; sorting by the order of padded decimals and of dates |

Properties that turned out to be false of the code as first worded are kept in view: the
theorem `Cnn_*_refuted` exhibits a concrete counterexample, the claim that does hold is proved
for all inputs beside it, and the manifest says `partial` when the remaining claim is not the
one a user would expect (C81, C83, C85).

## Trusted base

* Coq 8.16.1's kernel (including `vm_compute`'s conversion).  `Print Assumptions` answers "Closed under the
  global context" for every theorem listed in MANIFEST.json: no axiom is used, not even from
  the standard library.  (The verdict of `vcheck` lists the parameters of `Coq.ssr.ssrunder`,
  which are library module fields no theorem depends on.)
* The transcription of the Rust text into `Bytes` .. `PyExec`: every definition cites the lines it
  models.  Rust's `str` functions (`find`, `replace`, `split_whitespace`, `trim`, `parse::<i32>`, ...) are
  transcribed from their documentation.
* The transcription has been tested (not proved) by replaying the repository's own tests on the model: `conformance/run.sh`
  extracts the model as JSON outside this tree, runs it with a small interpreter (`mini.py`) and replays `src/bif/*_tests.rs`, `tests/test-bifs*.rs`, `tests/test-injects*.rs` and
  `tests/test-utils.rs`.  789 tests and 147 assertions on utility functions agree, none disagrees; 14 tests with assertions the replayer does
  not interpret (random numbers, dates) and 8 that need php-fpm are left out.  No theorem depends on it.
* The statements: `Spec.v` and `SpecEngine.v` define the vocabulary.

## What is modelled

`utils.rs` (all functions), `block_parser.rs` (all), `bif/mod.rs` (all), `macros.rs`, all forty handlers
`parse_bif_*.rs`, `template.rs` (all public functions except the two below), `shared.rs`, the constants and the default
schema, the FastCGI codec and the control flow of `exec_php.rs`, the PHP bridge script it writes, `exec_python.rs`, and the
bash script `cache-utils/clean-cache`, and the client script `NEUTRAL_JS` (ClientJs.v, ClientForm.v).

Ghost state, not in the program: the list of interactions with the environment (`strace`) and
the list of bifs started and exit-flag assignments (`slog`) inside `Shared`.

## What is not modelled

* `get_time_duration`, `time_start`, `time_elapsed` (wall-clock measuring), `eprintln!` messages,
  `Template`'s `Default`-like helpers.
* the inside of Python (module bodies, callbacks, json.loads/dumps): oracles; packages (names with a dot) and module `__getattr__`.
  For the engine a script call is an oracle that depends on the whole history; `PyExec.v` and `PhpExec.v` model the two
  executors separately.
* PHP and bash beyond the constructs used by the two scripts: json_decode/json_encode, require_once, the user's PHP code (oracles,
  PhpBridge.v); clean-cache on arguments with line feeds, locales with other collation, a file that vanishes during stat.
* The browser: HTML parsing (an answer arrives as the elements it is parsed to), layout, IntersectionObserver's own scheduling, other
  scripts changing classes, data attributes or ids; the root element as a target; that js/neutral.min.js is the same program.
* connecting the socket of `exec_php.rs` and its time limit, DNS resolution of the endpoint (oracles); reads and writes are modelled call by call in `Socket.v`.
* the error texts of rmp_serde (reader and writer are modelled in `MsgPack.v`, their floats in `PackFloat.v`), the code of the crates md-5 and sha2 (the functions they compute are modelled in `Digest.v` from their standards), the code of chrono (the functions it computes for UTC times are modelled in `DateFmt.v`, the theorems stop at the year 10000; `e_date` is a function of the second and the format, so two calls in the same second with the same format show the same nanoseconds), `regex` (its one fixed pattern is
  transcribed), serde_json's error texts (its reader and printers are modelled in `JsonText.v`, its floats in `JsonFloat.v`, from its
  documentation; the engine itself uses them as oracles, and `speaks_json` says that the oracles are these), the code of Rust's float parser and printer (the functions they compute are modelled in `Float64.v`; of two shortest decimals equally near to a number the specification allows either).
* Integer overflow of `usize`/`u64` counters that would need more than 2^63 events; the overflow of `count` and of the
  cache expiry, which one template can cause, is modelled as a panic (debug builds panic, release builds wrap).
* Memory exhaustion and stack overflow: nesting is bounded only by the bif limit in the model.
* The `HashMap` iteration order: no modelled function iterates over one.
* Concurrency between processes: another process may change files between two interactions (the oracle depends on the
  history of interactions and is otherwise arbitrary, so every such interleaving is covered); Template itself is not
  shared between threads.

## Findings (differences between what a user expects and what the code does)

Each is visible in the model; those marked * are stated as `_refuted` theorems or are part of a theorem's statement.

* Numbers with 16 and more digits in a schema (or any JSON) are not read exactly, since serde_json is used without its feature
  `float_roundtrip`: `27.847603927706178` is shown as `27.847603927706174`, and `8000000000000020.0` as `8000000000000019.0`, so
  a value that went through the engine twice (cache keys, object answers, debug) can change (C109_drift*).
* The same number can be shown differently according to how the schema came: as MessagePack a double is shown exactly (`27.847603927706178`), as
  JSON text as `…174`; a four-byte float, as many packers write it, is shown with its binary error (0.1 as `0.10000000149011612`) (C111_values).
* `{:date;}` with a `%` that no known letter follows aborts the program whatever the time (`{:date; 100% :}`, `{:date; %Q :}`): chrono's Display returns an error and `to_string` panics (C112_date, C112_refused).
* A crash between the creation and the writing of a cache entry leaves an empty or cut entry that later processes serve as
  complete until it expires (C81*). The PHP bridge file is written the same way and, if cut, never repaired: only its
  existence is checked.
* clean-cache reads an expiry with a leading zero as octal (entries of 0300 seconds are removed after 192 seconds, those of 08 never),
  never removes entries of /+60/, and removes entries in the last second in which they are served; a render at that moment can
  lose a block without bifs (C94*).
* Text or data that contains "&#9224" or "&#0;" is altered in the page: the marks of ^ and of silent bifs are ordinary text, and the mark of ^
  lacks its semicolon (C90).
* Empty JSON objects reach a PHP callback as empty arrays, and no parameters as an empty array (C93).
* Python modules are found by bare file name and kept: of two scripts with the same base name only the first ever runs (C83*). Only
  the venv of the first call in a process has an effect, and sys.path grows with every call (C84*).
* `remove_comments` panics exactly when a text with a never closed comment ends in ':'; otherwise a never closed comment also takes
  the text before it, back to the previous comment, and leaves what follows its last ':' (C56).
* `{:!cache; hello` (unclosed) makes `render` loop for ever (C27*).
* A non-ASCII character at the start of a bif name panics (C57*).
* A second `render` after `render_once` panics although the documentation promises empty output (C44*).
* `merge_schema_*` with a non-object JSON text panics or destroys the schema (C14*).
* A source without bifs keeps the status of the previous render (C44*).
* `for` replaces a non-string variable of the same name by a string (C36*).
* The text between the exit and the end of its block is partly emitted; `{:!exit;` lowers the exit flag raised by a nested exit (C42*).
* Dynamic names: `{:;{:&;ref:}:}` and any text that contains "{:allow;" somewhere pass the check (C37*); `obj` evaluates a
  dynamic file name without allow (C38*).
* `{:&;CONTEXT->x:}` is not filtered when a loop rebinds CONTEXT (C10*).
* The cache key concatenates its components without separators: exchanging GET and COOKIES gives the same entry (C49*).
  Expiry overflows for large numbers (C48*).
* Status ranges are compared as texts: "50000", "40404" and "5" (C40*).
* Header spellings: an update of the Pascal-case header is overwritten by an old lower-case one (C15*).
* Filtering of keys can merge two entries (C09*).  Merging is not associative in presence of null (C13*).
* moveto of the same code to two tags keeps only the last one; two markers can produce a new one when removed.
* `{:snippet; {:flg; static :} ..` definitions are written to the enclosing scope; calling a snippet changes the current
  directory for the following bifs (C72*); a name with "/" or "->" can be defined but not called (C72*); a snippet call whose content contains "{:snip" exports its definitions.
* `{:data; {:flg; inline :} >> {} :}` merges null and erases the local data, as any data without a member "data" does (C69*).
* The format of `date` is its source text, even if it has bifs (C75*).  `{:date; %bad :}` panics; an obj whose "template" is not a string panics (C57*).
* A cache hit with an unreadable file and code without bifs gives no output (C47*).
* `fetch` substitutes "{endpoint}" inside the body and the placeholders inside earlier values (C76*).
* The answer of an obj script is pasted into template text: a string with ":}" in it ends the data block and the rest is evaluated as a
  template, so a script that returns user input lets the user run bifs (C78*).
* A PHP answer cut off after some output is taken for the whole answer (C68*); an answer with LF LF headers whose body contains CR LF CR LF loses the
  beginning of its body.
* FastCGI bodies and parameter blocks over 65535 bytes are refused instead of being split (C61*).
* After the first `{:!cache;..:}` of a cache pass every later bif-looking text is evaluated (C64*).
* An unmatched block sets status 500 even after an exit.
* `else` after a bif whose output is white space renders nothing (C24*); as first bif of a nested block it sees the
  parent's flag.
* each/for with a path-like variable name set a literal key "a->b".
* A file included inside an included file is not remembered outside.
* A redirect with an unlisted type is accepted when its target contains both "js:reload:self" and "js:reload:top" (C41*).
* redirect/exit/moveto inside a cache both act and echo themselves.
* join uses a JSON pointer, which differs from the variable lookup.
* A nested cache is shown longer than its own seconds: the outer entry keeps it until it expires itself, so a date in a cache of 300 seconds
  inside one of 100 can be almost 400 seconds old, against doc/bif-cache.md (C48_nested_refuted).
* The five-second time-out of PHP calls limits each read and write, not the call: a peer that drips bytes holds the render for ever (C105*).
* MessagePack data followed by anything is accepted (C103_rest) where JSON text is refused (C103_odd); NaN becomes null; `merge_schema_msgpack` refuses
  the empty data that `from_file_msgpack` takes as {} (C103_from_file); values nested 128 to 1023 deep can be loaded only this way (C103_deep).
* Merging a valid JSON (or MessagePack) value that is neither an object nor null aborts the program instead of returning an error; merging null
  replaces the whole schema, so that the next render aborts (C102_abort, C102_example).
* A config.error.show that is not a bool, a limit that is not a natural number ("60" as a string) abort the render (C101*).
* A fetch whose data-wrap names no element is sent all the same, its answer is dropped and neither event is dispatched (C99_lost*).
* A form whose answer goes to another place than around it stays disabled for ever; a form submitted again by a script while a request is under way
  loses its button text; buttons without a type attribute are neither disabled nor marked (C100*).
* With a file field every other named field without [] is sent once more; disabled fields and all submit buttons are sent too (C100_with_file*).
