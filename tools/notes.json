{
 "C09": {
  "note": "Which values survive is characterised exactly; that nothing is ever lost is refuted by C09_all_entries_kept_refuted."
 },
 "C13": {
  "note": "Agreement and idempotence proved; associativity is not claimed and refuted."
 },
 "C15": {
  "note": "Also refuted: the newest value need not win (lower-case spelling has priority)."
 },
 "C56": {
  "status": "proved",
  "note": "Exact: C56_exact is an iff with the specification `uncommented`, C56_fails is the exact set of failing sources; C56_remove_comments_total_refuted records that the set is not empty (a panic in the code)."
 },
 "C36": {
  "status": "proved",
  "note": "C36_exact and C36_restored_iff say exactly what is left; that every value is restored is false of the code (C36_restored_refuted). For plain variable names (no ->, / or local::)."
 },
 "C49": {
  "note": "C49_refuted: two differences at once (GET and COOKIES exchanged) can share an entry."
 },
 "C10": {
  "note": "Refuted companion shows the CONTEXT exception."
 },
 "C42": {
  "note": "C42_exit_is_final_refuted shows that !exit lowers the flag."
 },
 "C24": {
  "note": "C24_visible_output_refuted: output means before trimming."
 },
 "C41": {
  "note": "C41_other_types_refuted shows the js:reload edge."
 },
 "C27": {
  "status": "proved",
  "note": "C27_ends_iff is an equivalence; that every render ends is false of the code (C27_terminates_refuted)."
 },
 "C81": {
  "status": "partial",
  "note": "The full claim (a later render outputs what an undisturbed one does) is false of the code: C81_undisturbed_refuted. Proved: what a crash can leave behind (C81_anywhere, C81_left) and that exactly this is served (C81_served_partial)."
 },
 "C83": {
  "status": "partial",
  "note": "The full claim is false of the code: C83_named_file_refuted. Proved: which file is run (C83_loaded, C83_fresh), and the claim for every life of a process without name clashes and tampering scripts (C83_history_partial)."
 },
 "C85": {
  "status": "partial",
  "note": "The full claim (an answer is only ever data) is false of the code: C78_answer_is_data_refuted. Proved for every answer whose text contains neither {: nor :}; C85_strings_partial, with the JSON printer of C98, for every answer whose keys and strings contain neither."
 },
 "C98": {
  "note": "serde_json is a dependency whose source is not in /repo: JsonText.v is transcribed from its documentation and RFC 8259."
 }
}