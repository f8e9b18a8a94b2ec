(** * C33: after a bif that fails *)
From Verif Require Import Bytes Json Utils ConstantsGen State Engine Template Spec SpecEngine SpecParts BytesFacts EvalProofs HandlerProofs Samples
  PropertiesEngine PropertiesBifs PropertiesMore PropertiesParts PropertiesArgs.

(** A bif that fails (with the message [msg], after writing [o], in the state [sf]) adds one line to the errors and nothing but [o] to
    the output; what is before it stays, and what is behind it is evaluated as usual, from the state in which the bif has failed. *)
Theorem C33_failing_bif : forall env s i only l1 b l2 o1 s1 i1 msg al mods text o sf jf l, wf_items false (l1 ++ TBif b :: l2) ->
  evaluates (fun s i b => eval_bif env s i b only) (as_segments [] l1) s i o1 s1 i1 true ->
  s1.(exit) = false -> ~ is_comment (text_of (TBif b)) -> ~ decided i1 ->
  eval_bif env s1 i1 (text_of (TBif b)) only = failed env msg al mods text o sf jf -> errors_are sf.(schema) l -> sf.(exit) = false ->
  exists line ob s2 i2, errors_are s2.(schema) (l ++ [line]) /\ s2.(has_error) = true /\
    ob = trim ((if has_mod "^" mods then BACKSPACE else []) ++ o) /\
    (forall k, k <> B "__error" -> vget k s2.(schema) = vget k sf.(schema)) /\ s2.(indir_store) = sf.(indir_store) /\ s2.(status_code) = sf.(status_code) /\
    forall o2 s3 i3 fin, evaluates (fun s i b => eval_bif env s i b only) (as_segments [] l2) s2 i2 o2 s3 i3 fin ->
      parse env s i (texts (l1 ++ TBif b :: l2)) only = BOk (if fin then trim (o1 ++ ob ++ o2) else o1 ++ ob ++ o2) s3 i3.
Proof.
  intros env s i only l1 b l2 o1 s1 i1 msg al mods text o sf jf l W H1 HE HC HD HF HL HX.
  destruct (C97_report env msg al mods text o sf jf l HL) as (line & ob & s2 & i2 & ER & EL & _ & EH & _ & EK & EI & EC & _ & _ & EX & _).
  exists line, ob, s2, i2. split; [exact EL|]. split; [exact EH|]. split; [unfold failed, finished in ER; inversion ER; reflexivity|].
  split; [exact EK|]. split; [exact EI|]. split; [exact EC|]. intros o2 s3 i3 fin H2.
  destruct (items_segments _ W) as (bl & EB & ES). apply (parse_evaluates env s i _ only bl _ s3 i3 EB). exists (o1 ++ ob ++ o2), fin. split; [|reflexivity]. rewrite ES.
  apply (evaluates_parts _ (TBif b :: l2) (ob ++ o2) s3 i3 fin l1 [] s i o1 s1 i1 H1 HE). cbn [as_segments].
  change (ob ++ o2) with ([] ++ ob ++ o2). eapply ev_bif; [exact HE|exact HC|exact HD| |exact H2]. cbn beta. rewrite HF. exact ER.
Qed.
Print Assumptions C33_failing_bif.

(** a bif without a handler, between texts *)
Example C33_failing_example :
  let s := fst (start_of "") in let i := snd (start_of "") in
  let l1 := [TLit (B "a ")] in let b := [TLit (B "nosuch; x ")] in let l2 := [TLit (B " b "); TBif [TLit (B ";name")]] in
  wf_items false (l1 ++ TBif b :: l2) /\ texts (l1 ++ TBif b :: l2) = B "a {:nosuch; x :} b {:;name:}" /\
  evaluates (fun s i b => eval_bif env0 s i b []) (as_segments [] l1) s i (B "a ") s i true /\
  s.(exit) = false /\ ~ is_comment (text_of (TBif b)) /\ ~ decided i /\
  eval_bif env0 s i (text_of (TBif b)) [] =
    failed env0 (B "unknown bif") (B "unknown") [] (text_of (TBif b)) [] (started s) (started_in s i) /\
  errors_are (started s).(schema) [] /\ (started s).(exit) = false /\
  output_of "a {:nosuch; x :} b {:;name:}" = B "a  b World".
Proof.
  intros s i l1 b l2. split; [|split; [reflexivity|split; [apply ev_text|split; [reflexivity|split; [|split; [|split; [|split; [|split]]]]]]]].
  - assert (forall t, t <> [] -> find (B "{:") t = None -> find (B ":}") t = None -> wf_items false [TLit t]) as WL.
    { intros t N E1 E2. apply wfs_cons; [apply wfi_lit; [exact N|apply find_none; exact E1|apply find_none; exact E2]|constructor|intros _; exact I]. }
    assert (forall t, wf_items false [TLit t] -> (exists c r, t = c :: r /\ c <> "*"%char) -> (exists r c, t = r ++ [c] /\ c <> "{"%char) -> wf_item false (TBif [TLit t])) as WB.
    { intros t HW (c & r & -> & HC) (r' & c' & E' & HC'). apply wfi_bif; [exact HW| | |discriminate]; cbn [texts flat_map text_of] in *; rewrite app_nil_r.
      - intros [q E]. injection E as -> _. contradiction.
      - intros [q E]. rewrite E' in E. apply app_inj_tail in E as [_ ->]. contradiction. }
    assert (wf_item false (TBif b)) as W1.
    { apply WB; [apply WL; [discriminate|reflexivity|reflexivity]|eexists _, _; split; [reflexivity|discriminate]|exists (B "nosuch; x"), " "%char; split; [reflexivity|discriminate]]. }
    assert (wf_item false (TBif [TLit (B ";name")])) as W2.
    { apply WB; [apply WL; [discriminate|reflexivity|reflexivity]|eexists _, _; split; [reflexivity|discriminate]|exists (B ";nam"), "e"%char; split; [reflexivity|discriminate]]. }
    assert (wf_item false (TLit (B "a "))) as W3 by (apply lit_none; reflexivity || discriminate).
    assert (wf_item false (TLit (B " b "))) as W4 by (apply lit_none; reflexivity || discriminate).
    unfold l1, l2. cbn [app].
    repeat (apply wfs_cons; [first [exact W1|exact W2|exact W3|exact W4]| |first [intros _ H; destruct H as [? H]; discriminate H|intros H; destruct H as [? H]; discriminate H|intros _; exact I|intros _ []]]).
    constructor.
  - intros [r E]. vm_compute in E. discriminate E.
  - intros [E _]. discriminate E.
  - vm_compute. reflexivity.
  - vm_compute. reflexivity.
  - reflexivity.
  - vm_compute. reflexivity.
Qed.
