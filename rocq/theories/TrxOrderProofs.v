(** Proofs about the order of saving and using columns in trx files. *)
From Verif Require Import Prelude ListAux ConfigModel ConfigSpec ConfigVarsProofs ConfigProofs TrxModel TrxSpec TrxKeyProofs
  TrxRowProofs TrxProofs TrxStmtProofs TrxLineProofs TrxOrderSpec.
#[local] Open Scope string_scope.
#[local] Open Scope list_scope.

Definition hk (m : smap key) (k : string) : Prop := sget k m <> None.
Definition sub (m m' : smap key) : Prop := forall k v, sget k m = Some v -> sget k m' = Some v.
Lemma sub_refl m : sub m m. Proof. intros ? ?; auto. Qed.
Lemma sub_trans a b c : sub a b -> sub b c -> sub a c. Proof. intros X Y ? ? ?; auto. Qed.
Lemma sub_hk m m' k : sub m m' -> hk m k -> hk m' k.
Proof. unfold hk. intros S H. destruct (sget k m) eqn:E; [|congruence]. rewrite (S _ _ E). discriminate. Qed.

Notation keep := (fun o => negb (String.eqb o "_")).

(** The columns that were saved on the way from [m] to [m']. *)
Definition fresh (m m' : smap key) (os : list string) : Prop :=
  (forall o, In o os -> o <> "_" -> ~ hk m o /\ hk m' o) /\ NoDup (filter keep os).
Lemma fresh_nil m : fresh m m []. Proof. split; [easy|constructor]. Qed.
Lemma fresh_app m1 m2 m3 os os' : sub m1 m2 -> sub m2 m3 -> fresh m1 m2 os -> fresh m2 m3 os' -> fresh m1 m3 (os ++ os').
Proof.
  intros S1 S2 [A1 A2] [B1 B2]. split.
  - intros o I N. apply in_app_or in I as [I|I].
    + destruct (A1 o I N). split; [auto|]. eapply sub_hk; eauto.
    + destruct (B1 o I N). split; [|auto]. intros X. eapply sub_hk in X; eauto.
  - rewrite filter_app. 
    assert (D : forall o, In o (filter keep os) -> ~ In o (filter keep os')).
    { intros o I J. apply filter_In in I as [I N]. apply filter_In in J as [J _].
      assert (o <> "_") by (intros ->; discriminate). destruct (A1 o I H) as [_ X]. destruct (B1 o J H) as [Y _]. auto. }
    clear - A2 B2 D. induction (filter keep os) as [|x l IH]; [exact B2|]. cbn. inversion A2; subst. constructor.
    + intros I. apply in_app_or in I as [I|I]; [auto|]. exact (D x (or_introl eq_refl) I).
    + apply IH; auto. intros o I. apply D. now right.
Qed.
Lemma fresh_le m0 m m' os : sub m0 m -> fresh m m' os -> fresh m0 m' os.
Proof. intros S [A B]. split; [|auto]. intros o I N. destruct (A o I N) as [X Y]. split; [|auto]. intros Z. eapply sub_hk in Z; eauto. Qed.
Lemma fresh_ge m m' m2 os : sub m' m2 -> fresh m m' os -> fresh m m2 os.
Proof. intros S [A B]. split; [|auto]. intros o I N. destruct (A o I N) as [X Y]. split; [auto|]. eapply sub_hk; eauto. Qed.

Definition step (m : smap key) (s : pstmt) (m' : smap key) : Prop :=
  sub m m' /\ fresh m m' (p_outputs s) /\ (p_insert s <> "" -> In (p_insert s) (p_outputs s)) /\
  (forall k, In k (p_inputs s) -> k <> "@PREV" -> hk m' k).
Inductive chain : smap key -> list pstmt -> smap key -> Prop :=
| chain_nil m m' : sub m m' -> chain m [] m'
| chain_cons m m1 m2 m3 s ss : sub m m1 -> step m1 s m2 -> chain m2 ss m3 -> chain m (s :: ss) m3.
Lemma chain_sub m ss m' : chain m ss m' -> sub m m'.
Proof. induction 1 as [|m m1 m2 m3 s ss S [T _] C IH]; eauto using sub_trans. Qed.
Lemma chain_le m0 m ss m' : sub m0 m -> chain m ss m' -> chain m0 ss m'.
Proof.
  intros S C. destruct C as [m m' H|m m1 m2 m3 s ss H ST D]; [apply chain_nil; exact (sub_trans _ _ _ S H)|].
  exact (chain_cons _ _ _ _ _ _ (sub_trans _ _ _ S H) ST D).
Qed.
Lemma chain_app m1 m2 m3 ss ss' : chain m1 ss m2 -> chain m2 ss' m3 -> chain m1 (ss ++ ss') m3.
Proof. induction 1; intros D; cbn; [eapply chain_le; eauto|econstructor; eauto]. Qed.

Section file.
  Context (T : tenv) (name : string).

  Lemma column_fresh f i c o f1 : column T name f i c = Some (o, f1) -> fresh (f_keys f) (f_keys f1) [o].
  Proof.
    intros H. pose proof (column_spec T name _ _ _ _ _ H) as (_ & HK & _). split.
    - intros x [<-|[]] N. split; [|exact HK]. unfold column in H. destruct (String.eqb_spec (trim_space (trim_comma c)) noop_column) as [E|E].
      + destruct (sget noop_column (f_keys f)); injection H as <- _; exfalso; apply N; reflexivity.
      + destruct (sget (trim_space (trim_comma c)) (f_keys f)) eqn:K; [discriminate|]. destruct (te_make _ _ _ _); [|discriminate].
        injection H as <- _. unfold hk. congruence.
    - cbn. destruct (negb _); repeat constructor. easy.
  Qed.
  Lemma columns_fresh cs : forall f i os f1, columns T name f i cs = Some (os, f1) -> fresh (f_keys f) (f_keys f1) os.
  Proof.
    induction cs as [|c cs IH]; intros f i os f1 H; cbn in H; [injection H as <- <-; apply fresh_nil|].
    destruct (column T name f i c) as [[o f2]|] eqn:E; [|discriminate]. cbn [fst snd] in H.
    destruct (columns T name f2 (S i) cs) as [[os' f3]|] eqn:E2; [|discriminate]. injection H as <- <-.
    pose proof (column_spec T name _ _ _ _ _ E) as (A & _). pose proof (columns_spec T name _ _ _ _ _ E2) as (B & _).
    cbn [fst snd]. change (o :: os') with ([o] ++ os'). eapply fresh_app; eauto using column_fresh.
  Qed.

  (** [s1] has the outputs of [s] and more, saved from [f] to [f1]. *)
  Definition grows (f : fstate) (s : pstmt) (f1 : fstate) (s1 : pstmt) : Prop :=
    exists os, p_outputs s1 = p_outputs s ++ os /\ fresh (f_keys f) (f_keys f1) os /\
      ((p_insert s <> "" -> In (p_insert s) (p_outputs s)) -> p_insert s1 <> "" -> In (p_insert s1) (p_outputs s1)).
  Lemma modifier_grows md s f s1 f1 : modifier T name md s f = Some (MGo s1 f1) -> grows f s f1 s1.
  Proof.
    unfold modifier. destruct (fields md) as [|w args]; [discriminate|]. cbv zeta.
    set (m := trim_colons w).
    assert (R : forall s1, p_outputs s1 = p_outputs s -> p_insert s1 = p_insert s -> grows f s f s1).
    { intros s2 E I. exists []. rewrite app_nil_r, E, I. split; [reflexivity|]. split; [apply fresh_nil|auto]. }
    destruct (String.eqb m "prepare" || String.eqb m "prepared")%bool; [intros [= <- <-]; now apply R|].
    destruct (String.eqb m "idle").
    { destruct args as [|a args]; [discriminate|]. destruct (e_parse_duration (te_env T) a); [|discriminate].
      intros [= <- <-]. now apply R. }
    destruct (String.eqb m "rows").
    { destruct args as [|a args]; [discriminate|]. destruct (parse_uint64 a); [|discriminate].
      destruct (match args with [b] => parse_uint64 b | _ => Some 0%N end); [|discriminate]. intros [= <- <-]. now apply R. }
    destruct (String.eqb m "table-size" || String.eqb m "database-size")%bool.
    { destruct args as [|a [|b [|? ?]]]; try discriminate. destruct (e_parse_bytes (te_env T) b); [|discriminate].
      intros [= <- <-]. now apply R. }
    destruct (String.eqb m "save-insert-id").
    { destruct (p_resultset s); [discriminate|]. destruct args as [|a args]; [discriminate|].
      destruct (column T name f 0 a) as [[o f2]|] eqn:E; [|discriminate]. intros [= <- <-]. cbn [fst snd].
      exists [o]. cbn [p_outputs p_insert add_outputs]. split; [reflexivity|]. split; [eapply column_fresh; eauto|].
      intros _ _. apply in_or_app. right. now left. }
    destruct (String.eqb m "save-columns").
    { destruct (columns T name f 0 args) as [[os f2]|] eqn:E; [|discriminate]. intros [= <- <-]. cbn [fst snd].
      exists os. cbn [p_outputs p_insert add_outputs]. split; [reflexivity|]. split; [eapply columns_fresh; eauto|].
      intros X N. apply in_or_app. left. auto. }
    destruct (String.eqb m "copies"); [|discriminate].
    destruct args as [|a args]; [discriminate|]. destruct (atoi a) as [n|]; [|discriminate].
    destruct (n <? 0)%Z; [discriminate|]. destruct (n =? 1)%Z; intros [= <- <-]; now apply R.
  Qed.
  Lemma modifiers_grows mods : forall s f s1 f1, modifiers T name mods s f = Some (MGo s1 f1) -> grows f s f1 s1.
  Proof.
    induction mods as [|m mods IH]; intros s f s1 f1 H; cbn in H.
    - injection H as <- <-. exists []. rewrite app_nil_r. split; [reflexivity|]. split; [apply fresh_nil|auto].
    - destruct (modifier T name m s f) as [[s2 f2|n f2]|] eqn:E; try discriminate.
      pose proof (modifier_spec T name _ _ _ _ E) as (A & _). pose proof (modifiers_spec T name _ _ _ _ H) as (B & _).
      apply modifier_grows in E as (os & E1 & E2 & E3). apply IH in H as (os' & H1 & H2 & H3).
      exists (os ++ os'). split; [now rewrite H1, E1, app_assoc|]. split; [eapply fresh_app; eauto|auto].
  Qed.

  Lemma finished_step mods s f s1 f1 cn q s2 f2 : p_outputs s = [] -> p_insert s = "" ->
    modifiers T name mods s f = Some (MGo s1 f1) -> finish T name cn q s1 f1 = Some (s2, f2) -> step (f_keys f) s2 (f_keys f2).
  Proof.
    intros O I M F. pose proof (modifiers_spec T name _ _ _ _ M) as (L1 & _). apply modifiers_grows in M as (os & M1 & M2 & M3).
    apply finish_spec in F as (L2 & _ & _ & _ & F5 & _ & q' & F7). rewrite O in M1. cbn in M1. split; [eapply sub_trans; eauto|].
    assert (E1 : p_outputs s2 = p_outputs s1) by now rewrite F7. assert (E2 : p_insert s2 = p_insert s1) by now rewrite F7.
    rewrite E1, E2. split; [rewrite M1; eapply fresh_ge; eauto|]. split; [intros N; apply M3; auto; intros Y; congruence|]. intros k K N. apply In_nth_error in K as [i K]. destruct (F5 i k K) as [Y|[Y _]]; [exact Y|contradiction].
  Qed.

  Lemma copies_chain n : forall i q mods f ss f', copies T name i n q mods f = Some (ss, f') -> chain (f_keys f) ss (f_keys f').
  Proof.
    induction n as [|n IH]; intros i q mods f ss f' H; cbn in H; [injection H as <- <-; constructor; apply sub_refl|].
    destruct (copy_stmt _ _ _ _ _ _) as [[s f1]|] eqn:E; [|discriminate]. cbn [fst snd] in H.
    destruct (copies _ _ _ _ _ _ _) as [[ss1 f2]|] eqn:E2; [|discriminate]. injection H as <- <-. cbn [fst snd].
    econstructor; [apply sub_refl| |eapply IH; eauto]. unfold copy_stmt in E.
    destruct (modifiers _ _ _ _ _) as [[s0 f0|]|] eqn:M; try discriminate.
    exact (finished_step _ (new_stmt name q) (see_ddl (new_stmt name q) f) _ _ _ _ _ _ eq_refl eq_refl M E).
  Qed.
  Lemma statements_chain str mods f ss f' : statements T name str mods f = Some (ss, f') -> chain (f_keys f) ss (f_keys f').
  Proof.
    unfold statements. set (q := trim_space str).
    destruct (modifiers _ _ _ _ _) as [[s0 f0|n f0]|] eqn:M; try discriminate.
    - destruct (finish _ _ _ _ _ _) as [[s f1]|] eqn:F; [|discriminate]. intros [= <- <-]. cbn [fst snd].
      econstructor; [apply sub_refl| |constructor; apply sub_refl].
      exact (finished_step _ (new_stmt name q) (see_ddl (new_stmt name q) f) _ _ _ _ _ _ eq_refl eq_refl M F).
    - apply modifiers_spec in M as (L & _). destruct (n =? 0)%N.
      + intros [= <- <-]. constructor. exact L.
      + destruct (copies _ _ _ _ _ _ _) as [[ss1 f1]|] eqn:E; [|discriminate]. cbn [fst snd].
        apply copies_chain in E. destruct ss1 as [|s1 ss1]; [discriminate|]. intros [= <- <-].
        match goal with |- context[(if ?b then _ else _) :: _] => generalize b; intros mu end.
        apply (chain_le _ (f_keys f0)); [exact L|]. inversion E; subst. econstructor; eauto. destruct mu; auto.
  Qed.
  Lemma parsed_chain us f ss f' : parsed T name us f ss f' -> chain (f_keys f) ss (f_keys f').
  Proof.
    induction 1 as [f|q mods ms us f ss f1 ss' f2 FM S P IH]; [constructor; apply sub_refl|].
    apply statements_chain in S. eapply chain_app; eauto.
  Qed.
  Lemma load_file_chain ls keys cfg ss f' : load_file T name ls keys cfg = Some (ss, f') -> chain keys ss (f_keys f').
  Proof. intros H. apply load_file_units in H as (_ & P & _). apply parsed_chain in P. exact P. Qed.
End file.

Lemma load_trx_chain T read xs : forall set set', load_trx T read xs set = Some set' ->
  exists sss, files_of T read xs sss /\ chain (t_keys set) (concat sss) (t_keys set') /\
    forall n ss, sget n (t_stmts set') = Some ss -> sget n (t_stmts set) = Some ss \/ In ss sss.
Proof.
  induction xs as [|x xs IH]; intros set set' H.
  - cbn in H. injection H as <-. exists []. split; [constructor|]. split; [constructor; apply sub_refl|auto].
  - cbn [load_trx] in H. destruct (read (x_file x)) as [ls|] eqn:E1; [|discriminate]. cbn in H.
    destruct (load_file T (x_name x) ls (t_keys set) (x_data x)) as [[ss f]|] eqn:E2; [|discriminate]. cbn [fst snd] in H.
    apply IH in H as (sss & A & B & C). exists (ss :: sss). split; [constructor; [|exact A]; eauto 8|].
    cbn [t_keys t_stmts] in *. split; [cbn; eapply chain_app; eauto using load_file_chain|].
    intros n ss' N. destruct (C n ss' N) as [X|X]; [|right; now right].
    rewrite sget_sset in X. destruct (String.eqb n (x_name x)); [injection X as ->; right; now left|auto].
Qed.

(** What a chain means for two statements. *)
Lemma chain_nth m ss m' : chain m ss m' -> forall i s, nth_error ss i = Some s ->
  exists m1 m2, sub m m1 /\ step m1 s m2 /\ chain m2 (skipn (S i) ss) m'.
Proof.
  induction 1 as [|m m1 m2 m3 s ss S ST C IH]; intros [|i] t N; try discriminate.
  - injection N as <-. exists m1, m2. auto.
  - cbn in N. destruct (IH i t N) as (a & b & A & B & D). exists a, b. split; [|auto].
    destruct ST as (ST & _). eauto using sub_trans.
Qed.
Lemma psaves_out m s m' o : step m s m' -> o <> "" -> psaves s o -> In o (p_outputs s).
Proof. intros (_ & _ & I & _) N [H|H]; [auto|]. rewrite <- H. apply I. congruence. Qed.
Lemma chain_later m ss m' i j s t o : chain m ss m' -> nth_error ss i = Some s -> nth_error ss j = Some t -> (i < j)%nat ->
  o <> "" -> o <> "_" -> psaves t o -> ~ psaves s o /\ (o <> "@PREV" -> ~ In o (p_inputs s)).
Proof.
  intros C I J L N0 N P. destruct (chain_nth _ _ _ C i s I) as (m1 & m2 & S1 & ST & C2).
  assert (J' : nth_error (skipn (S i) ss) (j - S i) = Some t).
  { rewrite <- J. clear -L. revert ss j L. induction i as [|i IH]; intros ss j L.
    - destruct j; [lia|]. destruct ss; cbn; [now destruct (j - 0)%nat|now rewrite Nat.sub_0_r].
    - destruct j; [lia|]. destruct ss as [|x ss]; [now destruct (S j - S (S i))%nat|]. cbn [skipn nth_error]. apply (IH ss j). lia. }
  destruct (chain_nth _ _ _ C2 _ t J') as (a & b & A & B & _).
  pose proof (psaves_out _ _ _ _ B N0 P) as O. destruct B as (_ & [F _] & _). destruct (F o O N) as [X _]. split.
  - intros Q. pose proof (psaves_out _ _ _ _ ST N0 Q) as Q'. destruct ST as (_ & [G _] & _). destruct (G o Q' N) as [_ Y].
    apply X. eapply sub_hk; eauto.
  - intros NP Q. destruct ST as (_ & _ & _ & K). apply X. eapply sub_hk; eauto.
Qed.
Lemma chain_once m ss m' : chain m ss m' -> saved_once ss.
Proof.
  intros C. split; [|split].
  - intros i j s t o I J N0 N P Q. destruct (Nat.lt_trichotomy i j) as [L|[L|L]]; [|exact L|]; exfalso.
    + exact (proj1 (chain_later _ _ _ i j s t o C I J L N0 N P) Q).
    + exact (proj1 (chain_later _ _ _ j i t s o C J I L N0 N Q) P).
  - intros i j s t o I J N0 N NP P U. destruct (Nat.lt_ge_cases i j) as [L|L]; [|exact L]. exfalso.
    exact (proj2 (chain_later _ _ _ i j s t o C I J L N0 N P) NP U).
  - intros s I. apply In_nth_error in I as [i I]. destruct (chain_nth _ _ _ C i s I) as (? & ? & _ & (_ & [_ F] & _) & _). exact F.
Qed.
