(** Lemmas for C132. *)
From Verif Require Import Prelude ListAux TrxModel TrxLineProofs.
From Verif Require TrxStmtProofs.
#[local] Open Scope string_scope.
#[local] Open Scope list_scope.

(** ** Statements of a trx file know the name of the trx *)
Section Named.
  Context (T : tenv) (name : string).
  Definition named (s : pstmt) : Prop := p_trx s = name.

  Lemma modifier_named md s f s1 f1 : modifier T name md s f = Some (MGo s1 f1) -> named s -> named s1.
  Proof.
    unfold modifier. destruct (fields md) as [|w args]; [discriminate|]. cbv zeta. intros H HI. unfold named in *.
    repeat match type of H with
    | (if ?b then _ else _) = Some _ => destruct b
    | match ?l with [] => _ | _ => _ end = Some _ => destruct l
    | match ?l with Some _ => _ | None => _ end = Some _ => destruct l
    | None = Some _ => discriminate
    | Some (MGo _ _) = Some _ => injection H as <- <-
    | Some (MCopies _ _) = Some _ => discriminate
    end; exact HI.
  Qed.
  Lemma modifiers_named mods : forall s f s1 f1, modifiers T name mods s f = Some (MGo s1 f1) -> named s -> named s1.
  Proof.
    induction mods as [|m mods IH]; intros s f s1 f1 H HI; cbn in H; [now injection H as <- <-|].
    destruct (modifier T name m s f) as [[s2 f2|n f2]|] eqn:E; try discriminate. apply modifier_named in E; auto. eauto.
  Qed.
  Lemma finish_named cn q s f s' f' : finish T name cn q s f = Some (s', f') -> named s -> named s'.
  Proof. intros H. apply TrxStmtProofs.finish_spec in H as (_ & _ & _ & _ & _ & _ & q' & ->). auto. Qed.
  Lemma copies_named n : forall i q mods f ss f', copies T name i n q mods f = Some (ss, f') -> Forall named ss.
  Proof.
    induction n as [|n IH]; intros i q mods f ss f' H; cbn in H; [now injection H as <- <-|].
    unfold copy_stmt in H. destruct (modifiers _ _ _ _ _) as [[s0 f0|]|] eqn:M; try discriminate.
    destruct (finish _ _ _ _ _ _) as [[s f1]|] eqn:E; [|discriminate]. cbn [fst snd] in H.
    destruct (copies _ _ _ _ _ _ _) as [[ss1 f2]|] eqn:E2; [|discriminate]. injection H as <- <-. cbn. constructor; eauto.
    eapply finish_named; [exact E|]. eapply modifiers_named; [exact M|]. reflexivity.
  Qed.
  Lemma statements_named str mods f ss f' : statements T name str mods f = Some (ss, f') -> Forall named ss.
  Proof.
    unfold statements. destruct (modifiers _ _ _ _ _) as [[s0 f0|n f0]|] eqn:M; try discriminate; intros H.
    - destruct (finish _ _ _ _ _ _) as [[s f1]|] eqn:F; [|discriminate]. injection H as <- <-. constructor; [|constructor].
      eapply finish_named; [exact F|]. eapply modifiers_named; [exact M|]. reflexivity.
    - destruct (n =? 0)%N; [injection H as <- _; constructor|].
      destruct (copies _ _ _ _ _ _ _) as [[ss1 f2]|] eqn:E2; [|discriminate]. cbn [fst snd] in H.
      destruct ss1; [discriminate|]. injection H as <- _. apply copies_named in E2. inversion E2; subst. constructor; auto.
      destruct (_ && _)%bool; auto.
  Qed.
  Lemma load_file_named ls keys cfg ss f' : load_file T name ls keys cfg = Some (ss, f') -> Forall named ss.
  Proof.
    intros H. apply load_file_units in H as (_ & P & _ & _). induction P; [constructor|].
    apply Forall_app. split; auto. eapply statements_named; eauto.
  Qed.
End Named.
