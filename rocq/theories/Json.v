(** * serde_json::Value (with the preserve_order feature, /repo/Cargo.toml) *)

From Verif Require Import Bytes.

(** [serde_json::Number]: a u64, a negative i64, or a finite f64.  A float is represented by
    its printed form and by whether it is > 0.0 (all the engine observes of it). *)
Inductive num :=
| NPos (n : N)
| NNeg (n : positive)
| NFloat (txt : bytes) (gt0 : bool).

(** [serde_json::Value]; objects keep insertion order. *)
Inductive json :=
| JNull
| JBool (b : bool)
| JNum (n : num)
| JStr (s : bytes)
| JArr (l : list json)
| JObj (m : list (bytes * json)).

Notation obj := (list (bytes * json)).

(** [Number::to_string] (utils.rs 294, parse_bif_join.rs 67). *)
Definition num_to_string (n : num) : bytes :=
  match n with
  | NPos n => dec_N n
  | NNeg p => dec_Z (Z.neg p)
  | NFloat t _ => t
  end.

(** [Number::as_f64 > 0.0] (utils.rs 348). *)
Definition num_gt0 (n : num) : bool :=
  match n with
  | NPos n => (0 <? n)%N
  | NNeg _ => false
  | NFloat _ b => b
  end.

(** [bool::to_string]. *)
Definition bool_to_string (b : bool) : bytes := if b then B "true" else B "false".

(** [Map::get], [Map::insert] (value replaced in place, or appended), [Map::remove]
    (shift_remove order does not matter here: only parse_bif_data.rs 40, 99 removes). *)
Fixpoint oget (k : bytes) (m : obj) : option json :=
  match m with
  | [] => None
  | (k', v) :: r => if beq k k' then Some v else oget k r
  end.

Fixpoint oset (k : bytes) (v : json) (m : obj) : obj :=
  match m with
  | [] => [(k, v)]
  | (k', v') :: r => if beq k k' then (k', v) :: r else (k', v') :: oset k v r
  end.

Definition okeys (m : obj) : list bytes := map fst m.

(** [Value::get(&str)]. *)
Definition vget (k : bytes) (j : json) : option json :=
  match j with JObj m => oget k m | _ => None end.

(** [value[key]] for reading: [Null] when missing or not an object. *)
Definition idx (j : json) (k : bytes) : json :=
  match vget k j with Some v => v | None => JNull end.

(** [&mut value[key]] followed by an update [f] of the place: [Null] becomes an object, a
    missing key is inserted as [Null]; any other value panics ([None]).
    (bif/mod.rs 276, parse_bif_each.rs 89-90, parse_bif_param.rs 29, template.rs 345-358, ...). *)
Definition upd (k : bytes) (f : json -> option json) (j : json) : option json :=
  match j with
  | JObj m => match f (match oget k m with Some v => v | None => JNull end) with
              | Some v => Some (JObj (oset k v m))
              | None => None
              end
  | JNull => match f JNull with Some v => Some (JObj [(k, v)]) | None => None end
  | _ => None
  end.

(** [value[key] = v]. *)
Definition put (k : bytes) (v : json) (j : json) : option json := upd k (fun _ => Some v) j.

(** [Value::as_str], [Value::as_bool], [Value::as_u64]. *)
Definition as_str (j : json) : option bytes := match j with JStr s => Some s | _ => None end.
Definition as_bool (j : json) : option bool := match j with JBool b => Some b | _ => None end.
Definition as_u64 (j : json) : option N := match j with JNum (NPos n) => Some n | _ => None end.
Definition is_null (j : json) : bool := match j with JNull => true | _ => false end.

(** serde_json's [Value::pointer] (RFC 6901; parse_bif_join.rs 54, parse_bif_debug.rs 60):
    "" is the value itself, otherwise it must start with '/', tokens are separated by '/', and
    "~1", "~0" are unescaped; array indices must not start with '+' or with a redundant '0'. *)
Definition parse_index (s : bytes) : option N :=
  match s with
  | c :: r => if aeqb c plus_sign || (aeqb c "0"%char && negb (is_empty r)) then None
              else parse_usize s
  | [] => None
  end.

Definition pointer_token (t : bytes) : bytes := replace (B "~0") (B "~") (replace (B "~1") (B "/") t).

Fixpoint pointer_go (toks : list bytes) (j : json) : option json :=
  match toks with
  | [] => Some j
  | t :: r =>
      let t := pointer_token t in
      match j with
      | JObj m => match oget t m with Some v => pointer_go r v | None => None end
      | JArr l => match parse_index t with
                  | Some i => match nth_error l (N.to_nat i) with
                              | Some v => pointer_go r v
                              | None => None
                              end
                  | None => None
                  end
      | _ => None
      end
  end.

Definition pointer (p : bytes) (j : json) : option json :=
  match p with
  | [] => Some j
  | c :: r => if aeqb c "/"%char then pointer_go (split (B "/") r) j else None
  end.

(** Induction over nested values. *)
Section json_ind'.
  Variable P : json -> Prop.
  Hypothesis Hnull : P JNull.
  Hypothesis Hbool : forall b, P (JBool b).
  Hypothesis Hnum : forall n, P (JNum n).
  Hypothesis Hstr : forall s, P (JStr s).
  Hypothesis Harr : forall l, Forall P l -> P (JArr l).
  Hypothesis Hobj : forall m, Forall (fun kv => P (snd kv)) m -> P (JObj m).
  Fixpoint json_ind' (j : json) : P j :=
    match j with
    | JNull => Hnull
    | JBool b => Hbool b
    | JNum n => Hnum n
    | JStr s => Hstr s
    | JArr l => Harr l ((fix go l : Forall P l :=
                           match l with
                           | [] => Forall_nil _
                           | x :: r => Forall_cons _ (json_ind' x) (go r)
                           end) l)
    | JObj m => Hobj m ((fix go m : Forall (fun kv => P (snd kv)) m :=
                           match m with
                           | [] => Forall_nil _
                           | x :: r => Forall_cons _ (json_ind' (snd x)) (go r)
                           end) m)
    end.
End json_ind'.
