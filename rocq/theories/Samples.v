(** * A concrete environment and template, used by the examples beside the theorems *)

From Verif Require Import Bytes Json Utils ConstantsGen State Engine Template.

(** An environment with an empty file system, a clock at 100 and a random generator that
    answers the lower bound.  Every JSON text parses to an empty object. *)
Definition env0 : Env :=
  mkEnv (fun s => s) (fun s => B "abc" ++ s) (fun s => s) (fun _ => inl (JObj [])) (fun _ => B "{}")
        (fun _ => B "{}") (fun a _ => a) (fun _ => None) (fun _ s => Some s) (B "/cwd") (B "/tmp")
        (fun _ _ => false) (fun _ _ => false) (fun _ _ => None) (fun _ _ => None) (fun _ _ => B "no file")
        (fun _ _ => None) (fun _ _ => None) (fun _ _ _ => None) (fun _ _ => None) (fun _ _ => None)
        (fun _ => 100%N) (fun _ => B "now") (fun _ lo _ => lo) (fun _ => B "0123456789abcdef")
        (fun _ _ => inl (JObj [])) (fun _ _ => inl (JObj [])).

Definition sample_schema : json :=
  match update_schema DEFAULT_SCHEMA
    (JObj [(B "data",
            JObj [(B "name", JStr (B "World"));
                  (B "evil", JStr (B "{:exit; 500 :}"));
                  (B "blank", JStr (B " "));
                  (B "ref", JStr (B "name"));
                  (B "rows", JArr [JObj [(B "x", JStr (B "{:;name:}"))]]);
                  (B "num", JNum (NPos 7));
                  (B "list", JArr [JStr (B "a"); JStr (B "b"); JStr (B "c")]);
                  (B "CONTEXT", JObj [(B "GET", JObj [(B "q<", JStr (B "<b>{:;x:}"))])])])]) with
  | Some j => j
  | None => JNull
  end.

Definition t0 : Template :=
  match template_new env0 with
  | TOk _ t => tset_schema sample_schema t
  | _ => mkTemplate [] [] JNull
           (mkShared JNull [] 0 [] false false [] [] [] [] false [] []
              (mkCfg [] [] 0 false false [] [] false false false false false 0 [] [])) []
  end.

Definition sample (src : string) : Template := set_src_str (B src) t0.

(** the output of a render of [src], or a text telling that it did not end normally *)
Definition output_of (src : string) : bytes :=
  match render env0 5 (sample src) with
  | TOk o _ => o
  | TPanic _ => B "panic"
  | TLoop => B "loop"
  end.

(** the state in which the evaluation of [sample src] starts *)
Definition start_of (src : string) : Shared * Inherit :=
  match init_render env0 (sample src) with
  | IOk _ s i => (s, i)
  | IPanic _ => (t_shared t0, inherit_new)
  end.

(** An environment in which "/f.ntpl" contains "[{:;name:}]", "/g.ntpl" includes it and
    "/j.json" is a JSON file, "/snippets.ntpl" has definitions; the rest as [env0]. *)
Definition files1 : list (bytes * bytes) :=
  [(B "/f.ntpl", B "[{:;name:}]"); (B "/g.ntpl", B "({:!include; /f.ntpl :})"); (B "/j.json", B "{...}");
   (B "/snippets.ntpl", B "{:snippet; hi >> <{:;name:}> :}{:declare; yn >> yes no :}")].
Definition has_file (p : bytes) : bool := existsb (fun f => beq p (fst f)) files1.
Definition file_text (p : bytes) : option bytes :=
  match List.find (fun f => beq p (fst f)) files1 with Some f => Some (snd f) | None => None end.
Definition env1 : Env :=
  mkEnv (fun s => s) (fun s => B "abc" ++ s) (fun s => s)
        (fun t => if beq t (B "{...}") then inl (JObj [(B "data", JObj [(B "x", JStr (B "local"))]);
                                                       (B "trans", JObj [(B "en", JObj [(B "Hello", JStr (B "Hi"))])])])
                  else inr (B "no json")) (fun _ => B "{}")
        (fun _ => B "{}") (fun a _ => a) (fun _ => None) (fun _ s => Some s) (B "/cwd") (B "/tmp")
        (fun _ p => has_file p) (fun _ p => has_file p) (fun _ p => Some p) (fun _ p => file_text p) (fun _ _ => B "no file")
        (fun _ _ => None) (fun _ _ => None) (fun _ _ _ => None) (fun _ _ => None) (fun _ _ => None)
        (fun _ => 100%N) (fun _ => B "now") (fun _ lo _ => lo) (fun _ => B "0123456789abcdef")
        (fun _ _ => inl (JObj [])) (fun _ _ => inl (JObj [])).

Definition output_in (env : Env) (src : string) : bytes :=
  match render env 5 (sample src) with
  | TOk o _ => o
  | TPanic _ => B "panic"
  | TLoop => B "loop"
  end.
(** the questions asked to the environment, oldest first *)
Definition trace_in (env : Env) (src : string) : list event :=
  match render env 5 (sample src) with
  | TOk _ t => rev t.(t_shared).(strace)
  | _ => []
  end.
