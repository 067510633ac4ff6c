(** Invariants of loading trx files, and of the stages made from them. *)
From Verif Require Import Prelude ConfigModel ConfigSpec ConfigVarsProofs ConfigProofs TrxModel TrxSpec TrxKeyProofs
  TrxRowProofs TrxProofs TrxStmtProofs TrxLineProofs PipeModel.
#[local] Open Scope list_scope.
#[local] Open Scope string_scope.

(** ** What every step keeps, every file keeps *)
Section keep.
  Context (T : tenv) (name : string) (I : fstate -> Prop).
  Hypothesis Icol : forall f i c o f1, column T name f i c = Some (o, f1) -> I f -> I f1.
  Hypothesis Iinp : forall prev m f w f1, one_input T name prev (String "@" m) f = Some (w, f1) -> I f -> I f1.
  Hypothesis Icsv : forall q f q' f1, expand_csv T q f = Some (q', f1) -> I f -> I f1.
  Hypothesis Iddl : forall s f, I f -> I (see_ddl s f).

  Lemma columns_keep cols : forall f i r, columns T name f i cols = Some r -> I f -> I (snd r).
  Proof using Icol.
    induction cols as [|c cols IH]; intros f i r H HI; cbn in H; [now injection H as <-|].
    destruct (column T name f i c) as [[o f1]|] eqn:E; [|discriminate]. cbn [snd] in H.
    destruct (columns T name f1 (S i) cols) as [rs|] eqn:E2; [|discriminate]. injection H as <-. cbn [snd]. eauto.
  Qed.

  Definition res_state (r : mres) : fstate := match r with MGo _ f => f | MCopies _ f => f end.
  Lemma modifier_keep md s f r : modifier T name md s f = Some r -> I f -> I (res_state r).
  Proof using Icol.
    unfold modifier. destruct (fields md) as [|w args]; [discriminate|]. cbv zeta. intros H HI.
    repeat match type of H with
    | (if ?b then _ else _) = Some _ => destruct b
    | match ?l with [] => _ | _ => _ end = Some _ => destruct l
    | match column T name f ?i ?c with Some _ => _ | None => _ end = Some _ =>
        destruct (column T name f i c) as [[? ?]|] eqn:?; cbn [fst snd] in H
    | match columns T name f ?i ?c with Some _ => _ | None => _ end = Some _ =>
        destruct (columns T name f i c) as [[? ?]|] eqn:?; cbn [fst snd] in H
    | match ?l with Some _ => _ | None => _ end = Some _ => destruct l
    | None = Some _ => discriminate
    | Some _ = Some _ => injection H as <-
    end; cbn [res_state]; eauto.
    all: try match goal with E : columns _ _ _ _ _ = Some _ |- _ => apply columns_keep in E; auto end.
  Qed.
  Lemma modifiers_keep mods : forall s f r, modifiers T name mods s f = Some r -> I f -> I (res_state r).
  Proof using Icol.
    induction mods as [|m mods IH]; intros s f r H HI; cbn in H; [now injection H as <-|].
    destruct (modifier T name m s f) as [[s1 f1|n f1]|] eqn:E; try discriminate; apply modifier_keep in E; auto.
    - eauto.
    - injection H as <-. exact E.
  Qed.

  Lemma inputs_keep pr ks : (forall k, In k ks -> exists m, trim_call k = String "@" m) -> forall prev f fmts ins f' fmts',
    inputs T name pr ks prev f fmts = Some (ins, f', fmts') -> I f -> I f'.
  Proof using Iinp.
    induction ks as [|k ks IH]; intros SH prev f fmts ins f' fmts' H HI.
    - cbn in H. now injection H as <- <- <-.
    - rewrite inputs_cons in H. destruct (one_input _ _ _ _ _) as [[w f1]|] eqn:E; [|discriminate].
      destruct (SH k) as [m Hm]; [now left|]. rewrite Hm in E. apply Iinp in E; auto.
      eapply IH; [|exact H|exact E]. intros x Hx. apply SH. now right.
  Qed.

  Lemma finish_keep cn q s f s' f' : finish T name cn q s f = Some (s', f') -> I f -> I f'.
  Proof using Iinp Icsv.
    unfold finish. destruct (expand_csv _ _ _) as [[q1 f1]|] eqn:E; [|discriminate]. cbn [fst snd].
    intros H HI. apply Icsv in E; auto. destruct (tokens_exist q1) as (l & <- & Cl).
    rewrite find_keys_sql in H by auto.
    destruct (key_texts l) as [|k ks] eqn:X; [now injection H as _ <-|]. rewrite <- X in H.
    destruct (inputs _ _ _ _ _ _ _) as [[[ins f2] fmts]|] eqn:IN; [|discriminate]. injection H as _ <-.
    eapply inputs_keep; [|exact IN|exact E]. intros x Hx. now apply key_at_sign with l.
  Qed.

  Lemma copy_keep cn q mods f s f' : copy_stmt T name cn q mods f = Some (s, f') -> I f -> I f'.
  Proof using Icol Iinp Icsv Iddl.
    unfold copy_stmt. destruct (modifiers _ _ _ _ _) as [[s0 f0|]|] eqn:M; try discriminate. intros H HI.
    apply modifiers_keep in M; auto. eapply finish_keep; eauto.
  Qed.
  Lemma copies_keep n : forall i q mods f ss f', copies T name i n q mods f = Some (ss, f') -> I f -> I f'.
  Proof using Icol Iinp Icsv Iddl.
    induction n as [|n IH]; intros i q mods f ss f' H HI; cbn in H; [now injection H as _ <-|].
    destruct (copy_stmt _ _ _ _ _ _) as [[s f1]|] eqn:E; [|discriminate]. cbn [fst snd] in H.
    destruct (copies _ _ _ _ _ _ _) as [[ss1 f2]|] eqn:E2; [|discriminate]. injection H as _ <-. cbn.
    eapply IH; [exact E2|]. eapply copy_keep; eauto.
  Qed.
  Lemma statements_keep str mods f ss f' : statements T name str mods f = Some (ss, f') -> I f -> I f'.
  Proof using Icol Iinp Icsv Iddl.
    unfold statements. destruct (modifiers _ _ _ _ _) as [[s0 f0|n f0]|] eqn:M; try discriminate; intros H HI;
      apply modifiers_keep in M; auto; cbn [res_state] in M.
    - destruct (finish _ _ _ _ _ _) as [[s f1]|] eqn:F; [|discriminate]. injection H as _ <-. eapply finish_keep; eauto.
    - destruct (n =? 0)%N; [now injection H as _ <-|].
      destruct (copies _ _ _ _ _ _ _) as [[ss1 f2]|] eqn:E2; [|discriminate]. cbn [fst snd] in H.
      destruct ss1; [discriminate|]. injection H as _ <-. eapply copies_keep; eauto.
  Qed.
  Lemma parsed_keep us f ss f' : parsed T name us f ss f' -> I f -> I f'.
  Proof using Icol Iinp Icsv Iddl. induction 1; auto. intros HI. apply IHparsed. eapply statements_keep; eauto. Qed.
  Lemma load_file_keep ls keys cfg ss f' : load_file T name ls keys cfg = Some (ss, f') ->
    I (FState keys [] cfg false) -> I f'.
  Proof using Icol Iinp Icsv Iddl. intros H. apply load_file_units in H as (_ & P & _ & _). exact (parsed_keep _ _ _ _ P). Qed.
End keep.

(** ** The insert ID is one of the outputs *)
Definition insert_out (s : pstmt) : Prop := p_insert s = "" \/ In (p_insert s) (p_outputs s).
Section insert.
  Context (T : tenv) (name : string).

  Lemma modifier_insert md s f s1 f1 : modifier T name md s f = Some (MGo s1 f1) -> insert_out s -> insert_out s1.
  Proof.
    unfold modifier. destruct (fields md) as [|w args]; [discriminate|]. cbv zeta. intros H HI.
    unfold insert_out in *.
    repeat match type of H with
    | (if ?b then _ else _) = Some _ => destruct b
    | match ?l with [] => _ | _ => _ end = Some _ => destruct l
    | match ?l with Some _ => _ | None => _ end = Some _ => destruct l
    | None = Some _ => discriminate
    | Some (MGo _ _) = Some _ => injection H as <- <-
    | Some (MCopies _ _) = Some _ => discriminate
    end; cbn [p_insert p_outputs set_prepare set_idle add_limit add_outputs]; auto.
    - right. apply in_or_app. right. now left.
    - destruct HI; auto. right. apply in_or_app. auto.
  Qed.
  Lemma modifiers_insert mods : forall s f s1 f1, modifiers T name mods s f = Some (MGo s1 f1) -> insert_out s -> insert_out s1.
  Proof.
    induction mods as [|m mods IH]; intros s f s1 f1 H HI; cbn in H; [now injection H as <- <-|].
    destruct (modifier T name m s f) as [[s2 f2|n f2]|] eqn:E; try discriminate. apply modifier_insert in E; auto. eauto.
  Qed.
  Lemma finish_insert cn q s f s' f' : finish T name cn q s f = Some (s', f') -> insert_out s -> insert_out s'.
  Proof. intros H. apply finish_spec in H as (_ & _ & _ & _ & _ & _ & q' & ->). auto. Qed.
  Lemma copies_insert n : forall i q mods f ss f', copies T name i n q mods f = Some (ss, f') -> Forall insert_out ss.
  Proof.
    induction n as [|n IH]; intros i q mods f ss f' H; cbn in H; [now injection H as <- <-|].
    unfold copy_stmt in H. destruct (modifiers _ _ _ _ _) as [[s0 f0|]|] eqn:M; try discriminate.
    destruct (finish _ _ _ _ _ _) as [[s f1]|] eqn:E; [|discriminate]. cbn [fst snd] in H.
    destruct (copies _ _ _ _ _ _ _) as [[ss1 f2]|] eqn:E2; [|discriminate]. injection H as <- <-. cbn. constructor; eauto.
    eapply finish_insert; [exact E|]. eapply modifiers_insert; [exact M|]. now left.
  Qed.
  Lemma statements_insert str mods f ss f' : statements T name str mods f = Some (ss, f') -> Forall insert_out ss.
  Proof.
    unfold statements. destruct (modifiers _ _ _ _ _) as [[s0 f0|n f0]|] eqn:M; try discriminate; intros H.
    - destruct (finish _ _ _ _ _ _) as [[s f1]|] eqn:F; [|discriminate]. injection H as <- <-. constructor; [|constructor].
      eapply finish_insert; [exact F|]. eapply modifiers_insert; [exact M|]. now left.
    - destruct (n =? 0)%N; [injection H as <- _; constructor|].
      destruct (copies _ _ _ _ _ _ _) as [[ss1 f2]|] eqn:E2; [|discriminate]. cbn [fst snd] in H.
      destruct ss1; [discriminate|]. injection H as <- _. apply copies_insert in E2. inv E2. constructor; auto.
      destruct (_ && _)%bool; auto.
  Qed.
  Lemma load_file_insert ls keys cfg ss f' : load_file T name ls keys cfg = Some (ss, f') -> Forall insert_out ss.
  Proof.
    intros H. apply load_file_units in H as (_ & P & _ & _). induction P; [constructor|].
    apply Forall_app. split; auto. eapply statements_insert; eauto.
  Qed.
End insert.

(** ** All the trx files of a stage *)

(** [f] of the key's entry for what the other lemmas say with a state. *)
Definition stmt_in (keys : smap key) (s : pstmt) : Prop :=
  List.length (p_calls s) = List.length (p_inputs s) /\
  (forall k, In k (p_inputs s) -> k = "@PREV" \/ sget k keys <> None) /\
  (forall k, In k (p_outputs s) -> sget k keys <> None) /\ insert_out s.

Definition keys_sub (a b : smap key) : Prop := forall k v, sget k a = Some v -> sget k b = Some v.
Lemma stmt_in_sub a b s : keys_sub a b -> stmt_in a s -> stmt_in b s.
Proof.
  intros S (A & B & C & D). assert (X : forall k, sget k a <> None -> sget k b <> None).
  { intros k H. destruct (sget k a) eqn:E; [|congruence]. rewrite (S _ _ E). discriminate. }
  split; [auto|]. split; [intros k Hk; destruct (B k Hk); auto|]. split; auto.
Qed.

Definition set_ok (set : tset) : Prop :=
  NoDup (skeys (t_keys set)) /\
  (forall n ss, sget n (t_stmts set) = Some ss -> ss <> [] /\ Forall (stmt_in (t_keys set)) ss) /\
  (forall n, In n (t_order set) -> sget n (t_stmts set) <> None).

Lemma column_nodup T name f i c o f1 : column T name f i c = Some (o, f1) ->
  NoDup (skeys (f_keys f)) -> NoDup (skeys (f_keys f1)).
Proof.
  unfold column. cbv zeta. intros H N.
  repeat match type of H with
  | (if ?b then _ else _) = Some _ => destruct b
  | match ?l with Some _ => _ | None => _ end = Some _ => destruct l
  | None = Some _ => discriminate
  end; injection H as _ <-; cbn [f_keys]; auto using nodup_sset.
Qed.
Lemma one_input_nodup T name prev n f w f1 : one_input T name prev n f = Some (w, f1) ->
  NoDup (skeys (f_keys f)) -> NoDup (skeys (f_keys f1)).
Proof.
  unfold one_input. cbv zeta. intros H N.
  repeat match type of H with
  | (if ?b then _ else _) = Some _ => destruct b
  | match ?l with Some _ => _ | None => _ end = Some _ => destruct l
  | None = Some _ => discriminate
  end; injection H as _ <-; cbn [f_keys]; auto using nodup_sset.
Qed.
Lemma expand_keys T q f q' f1 : expand_csv T q f = Some (q', f1) -> f_keys f1 = f_keys f.
Proof.
  unfold expand_csv. intros H. destruct (find_csv q) as [[[[a b] c] d]|]; [|now injection H as _ <-].
  destruct (digits_value 0 b) as [n|]; [|discriminate]. destruct (n <? 2 ^ 31)%N; [|discriminate].
  destruct (csv_keys _ _ _) as [r|]; [|discriminate]. now injection H as _ <-.
Qed.
Lemma load_file_nodup T name ls keys cfg ss f' : load_file T name ls keys cfg = Some (ss, f') ->
  NoDup (skeys keys) -> NoDup (skeys (f_keys f')).
Proof.
  intros H N. apply (load_file_keep T name (fun f => NoDup (skeys (f_keys f)))) in H; auto.
  - intros. eapply column_nodup; eauto.
  - intros. eapply one_input_nodup; eauto.
  - intros q f q' f1 E. now rewrite (expand_keys _ _ _ _ _ E).
Qed.

Lemma load_file_stmts T name ls keys cfg ss f' : load_file T name ls keys cfg = Some (ss, f') ->
  ss <> [] /\ keys_sub keys (f_keys f') /\ Forall (stmt_in (f_keys f')) ss.
Proof.
  intros H. pose proof (load_file_insert _ _ _ _ _ _ _ H) as I.
  pose proof (load_file_units T name ls keys cfg ss f') as [U _]. apply U in H as U1. destruct U1 as (_ & _ & NE & _).
  apply load_file_ok in H as (A & B & _). split; [auto|]. split; [exact A|].
  rewrite Forall_forall in *. intros s Hs. destruct (B s Hs) as ((O & _) & IN & L).
  split; [auto|]. split; [|split; [|auto]].
  - intros k Hk. apply In_nth_error in Hk as [i Hi]. destruct (IN i k Hi) as [X|[X _]]; auto.
  - intros k Hk. rewrite Forall_forall in O. now apply O.
Qed.

Lemma load_trx_ok T read xs : forall set set', load_trx T read xs set = Some set' -> set_ok set ->
  set_ok set' /\ keys_sub (t_keys set) (t_keys set') /\ t_order set' = (t_order set ++ map x_name xs)%list.
Proof.
  induction xs as [|x xs IH]; intros set set' H OK.
  - cbn in H. injection H as <-. split; [auto|]. split; [easy|]. now rewrite app_nil_r.
  - cbn [load_trx] in H. destruct (read (x_file x)) as [ls|]; [|discriminate]. cbn beta iota in H.
    destruct (load_file T (x_name x) ls (t_keys set) (x_data x)) as [[ss f]|] eqn:E; [|discriminate]. cbn [fst snd] in H.
    pose proof (load_file_stmts _ _ _ _ _ _ _ E) as (NE & SUB & SS). destruct OK as (ND & ST & OR).
    apply IH in H as (A & B & C).
    + split; [auto|]. cbn [t_keys t_order] in *. split; [intros k v Hk; auto|]. now rewrite C, <- app_assoc.
    + cbn [t_keys t_stmts t_order]. split; [eapply load_file_nodup; eauto|]. split.
      * intros n ss' Hn. cbn [t_keys t_stmts] in *. rewrite sget_sset in Hn. destruct (String.eqb_spec n (x_name x)).
        { injection Hn as <-. auto. }
        apply ST in Hn as [Hn1 Hn2]. split; auto. eapply Forall_impl; [|exact Hn2]. intros s. now apply stmt_in_sub.
      * intros n Hn. cbn [t_order t_stmts] in *. rewrite sget_sset. destruct (String.eqb_spec n (x_name x)); [discriminate|].
        apply in_app_or in Hn as [Hn|[Hn|[]]]; [auto|congruence].
Qed.
