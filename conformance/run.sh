#!/bin/bash
# Replays the tests of /repo on the model: the model is extracted (as JSON, outside this tree) and run by mini.py, the
# Rust tests are read as text and their API calls are made on it.  This tests the transcription; it proves nothing and
# no theorem depends on it.  Needs a built /verif/rocq; takes about ten minutes.
set -e
export CONF=${CONF:-/tmp/conf}; here=$(cd "$(dirname "$0")" && pwd); rm -rf $CONF; mkdir -p $CONF/tmp; cd $CONF; ulimit -s unlimited
cat > Extr.v <<'V'
From Coq Require Import Extraction.
From Verif Require Import Bytes Json Utils ConstantsGen State Engine Template.
Extraction Language JSON.
Extraction "model.json" template_new set_src_str set_src_path merge_schema_str render render_once get_status_code get_status_text get_status_param get_has_error get_error
  extract_blocks merge_schema remove_comments wildcard_match find_tag_position get_code_position escape_chars unescape_chars filter_value filter_value_keys resolve_pointer get_from_key is_empty_key is_bool_key is_array_key is_defined_key mkEnv mkTemplate.
V
coqc -Q "$here/../rocq/theories" Verif Extr.v
export PYTHONDONTWRITEBYTECODE=1
python3 "$here/utils.py"
python3 "$here/run.py" /repo/src/bif/*_tests.rs /repo/tests/test-bifs*.rs /repo/tests/test-inj*.rs
