(** C83: the modifiers of a statement have their documented effects. *)
From Verif Require Import Prelude ConfigModel ConfigSpec TrxModel TrxSpec TrxModSpec TrxModProofs TrxProps.
#[local] Open Scope list_scope.
#[local] Open Scope string_scope.

(** Without the modifier copies (see C55): whenever a text with modifiers is accepted it is one
    statement and each modifier has a meaning [es]; the statement is prepared iff a modifier says so,
    idles for the time of the last one, has the limits of all limit modifiers in their order, saves
    the columns of all save modifiers in their order and the insert ID in the last one named. *)
Theorem C83_effects : forall T name q mods f ss f',
  Forall (fun m => forall w l, words m (w :: l) -> ~ named "copies" w) mods ->
  statements T name q mods f = Some (ss, f') ->
  exists es s, ss = [s] /\ Forall2 (means (te_env T)) mods es /\
    p_prepare s = existsb prepares es /\ p_idle s = last (flat_map idles es) 0%Z /\
    p_limits s = flat_map limits es /\ p_outputs s = flat_map outs es /\ p_insert s = last (flat_map inserts es) "" /\
    p_trx s = name /\ p_multi s = 0%N.
Proof. exact statement_mods. Qed.

(** A modifier has at most one meaning. *)
Theorem C83_unambiguous : forall E m e e', means E m e -> means E m e' -> e = e'.
Proof. exact means_unique. Qed.

(** Modifiers that limit or idle make no statement unacceptable, nor acceptable. *)
Theorem C83_accepts : forall T name q mods es f,
  Forall2 (means (te_env T)) mods es ->
  Forall (fun e => match e with EIdle _ | ELimit _ => True | _ => False end) es ->
  (statements T name q mods f = None <-> statements T name q [] f = None).
Proof.
  intros T name q mods es f H S. apply (statement_accepts T name q mods es f H).
  - eapply Forall_impl; [|exact S]. intros []; easy.
  - clear -S. induction S as [|e es H _ IH]; auto. cbn. rewrite IH. destruct e; easy.
Qed.

(** An unknown modifier, or one with a missing or bad value, is refused. *)
Theorem C83_refused : forall T name q pre m post f,
  Forall (fun m => forall w l, words m (w :: l) -> ~ named "copies" w) (pre ++ m :: post) ->
  (forall e, ~ means (te_env T) m e) -> statements T name q (pre ++ m :: post) f = None.
Proof.
  intros T name q pre m post f NC NM. destruct (statements T name q (pre ++ m :: post) f) as [[ss f']|] eqn:H; auto. exfalso.
  apply statement_mods in H as [es [s [_ [Ms _]]]]; auto. apply Forall2_app_inv_l in Ms as [a [b [_ [Mb _]]]]. inversion Mb; subst. eapply NM; eauto.
Qed.

Example C83_example : exists s f',
  let mods := ["rows: 100"; "prepare"; ":idle 5s"; "table-size: t 1GB"; "rows 5 2"; "save-insert-id: @c"] in
  Forall2 (means (te_env T1)) mods [ELimit (LRows 100 0); EPrepare; EIdle 5000000000; ELimit (LSize 1000000000 "1GB" "" "t"); ELimit (LRows 5 2); EInsert "@c"] /\
  statements T1 "t" "INSERT INTO t VALUES (1)" mods f1 = Some ([s], f') /\
  p_limits s = [LRows 100 0; LSize 1000000000 "1GB" "" "t"; LRows 5 2] /\
  p_prepare s = true /\ p_idle s = 5000000000%Z /\ p_insert s = "@c" /\ p_outputs s = ["@c"] /\
  statements T1 "t" "INSERT INTO t VALUES (1)" ["row: 100"] f1 = None.
Proof.
  do 2 eexists. cbv zeta.
  assert (N : forall m w, TrxModel.trim_colons w = m -> named m w) by (intros m w; apply trim_colons_named).
  assert (D : forall c, digit c -> decimal (String c "") (N.of_nat (nat_of_ascii c - 48))) by (intros; constructor; auto).
  split.
  - constructor; [|constructor; [|constructor; [|constructor; [|constructor; [|constructor; [|constructor]]]]]].
    + eapply means_rows; [exact (fields_words _)|now apply N| |reflexivity].
      apply (dec_more "10" 10 "0"); [|unfold digit; vm_compute; lia]. apply (dec_more "1" 1 "0"); [|unfold digit; vm_compute; lia].
      apply (D "1"%char). unfold digit; vm_compute; lia.
    + eapply means_prepare; [exact (fields_words _)|left; now apply N].
    + eapply means_idle; [exact (fields_words _)|now apply N|reflexivity].
    + eapply means_table; [exact (fields_words _)|now apply N|reflexivity].
    + eapply means_offset; [exact (fields_words _)|now apply N|apply (D "5"%char); unfold digit; vm_compute; lia|apply (D "2"%char); unfold digit; vm_compute; lia|reflexivity|reflexivity].
    + eapply means_insert; [exact (fields_words _)|now apply N|]. right. split; [reflexivity|]. intros [|x [|y [|z s]]]; discriminate.
  - split; [vm_compute; reflexivity|]. repeat split; vm_compute; reflexivity.
Qed.

Print Assumptions C83_effects.
Print Assumptions C83_unambiguous.
Print Assumptions C83_accepts.
Print Assumptions C83_refused.
