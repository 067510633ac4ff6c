(** Proofs about File.statements: modifiers, copies, generators of inputs and outputs. *)
From Coq Require Import Permutation.
From Verif Require Import Prelude ConfigModel ConfigSpec ConfigVarsProofs ConfigProofs TrxModel TrxSpec TrxKeyProofs
  TrxRowProofs TrxProofs.
#[local] Open Scope list_scope.
#[local] Open Scope string_scope.

Definition has_key (f : fstate) (k : string) : Prop := sget k (f_keys f) <> None.
Lemma le_has f f' k : keys_le f f' -> has_key f k -> has_key f' k.
Proof. unfold has_key. intros L H. destruct (sget k (f_keys f)) eqn:E; [|congruence]. rewrite (L _ _ E). discriminate. Qed.
Lemma keys_le_refl f : keys_le f f. Proof. intros ? ?; auto. Qed.
Lemma keys_le_trans a b c : keys_le a b -> keys_le b c -> keys_le a c.
Proof. intros H1 H2 k v H. auto. Qed.
Lemma keys_le_eq f g : f_keys f = f_keys g -> keys_le f g.
Proof. intros E k v. now rewrite E. Qed.

(** Same row scoped keys. *)
Definition plain_name (n : string) : Prop := forall r, n <> String "@" r.
Definition data_same (f f' : fstate) : Prop := forall n, plain_name n -> rowish (f_data f') n <-> rowish (f_data f) n.
Lemma data_same_refl f : data_same f f. Proof. intros ? ?; tauto. Qed.
Lemma data_same_trans a b c : data_same a b -> data_same b c -> data_same a c.
Proof. intros H1 H2 n Hn. now rewrite (H2 n Hn), (H1 n Hn). Qed.
Lemma data_same_eq f g : f_data f = f_data g -> data_same f g.
Proof. intros E n _. now rewrite E. Qed.

(** Columns saved in the file, with the number of times they are used. *)
Definition saved (f : fstate) (k : string) : Prop := In k (skeys (f_refs f)).
Definition used (f : fstate) (k : string) : Prop := exists c, sget k (f_refs f) = Some (S c).

Section file.
  Context (T : tenv) (name : string).

  Lemma column_spec f i c o f1 : column T name f i c = Some (o, f1) ->
    keys_le f f1 /\ has_key f1 o /\ f_data f1 = f_data f /\
    (o <> "_" -> saved f1 o) /\ (forall k, saved f k -> saved f1 k) /\ (forall k, used f1 k -> used f k).
  Proof.
    unfold column. set (col := trim_space (trim_comma c)).
    destruct (String.eqb_spec col noop_column) as [E|E].
    - destruct (sget noop_column (f_keys f)) eqn:K; intros [= <- <-].
      + split; [apply keys_le_refl|]. split; [unfold has_key; congruence|].
        split; [auto|]. split; [intros X; exfalso; apply X; reflexivity|auto].
      + split; [|split; [|split; [reflexivity|split; [intros X; exfalso; apply X; reflexivity|split; auto]]]].
        * intros k v Hk. cbn [f_keys]. rewrite sget_sset. destruct (String.eqb_spec k noop_column); [congruence|auto].
        * unfold has_key. cbn [f_keys]. rewrite sget_sset, String.eqb_refl. discriminate.
    - destruct (sget col (f_keys f)) eqn:K; [discriminate|].
      destruct (te_make _ _ _ _) as [w|]; [|discriminate]. intros [= <- <-].
      split; [|split; [|split; [reflexivity|split; [|split]]]]; unfold saved, used, has_key; cbn [f_keys f_refs].
      + intros k v Hk. cbn [f_keys]. rewrite sget_sset. destruct (String.eqb_spec k col); [congruence|auto].
      + rewrite sget_sset, String.eqb_refl. discriminate.
      + intros _. apply skeys_sset. auto.
      + intros k Hk. apply skeys_sset. auto.
      + intros k (x & Hk). rewrite sget_sset in Hk. destruct (String.eqb k col); [discriminate|eauto].
  Qed.
  Lemma columns_spec cs : forall f i os f1, columns T name f i cs = Some (os, f1) ->
    keys_le f f1 /\ Forall (has_key f1) os /\ f_data f1 = f_data f /\
    (forall o, In o os -> o <> "_" -> saved f1 o) /\ (forall k, saved f k -> saved f1 k) /\ (forall k, used f1 k -> used f k).
  Proof.
    induction cs as [|c cs IH]; intros f i os f1 H; cbn in H.
    - injection H as <- <-. split; [apply keys_le_refl|]. repeat (split; auto). easy.
    - destruct (column T name f i c) as [[o f2]|] eqn:E; [|discriminate]. cbn [fst snd] in H.
      destruct (columns T name f2 (S i) cs) as [[os' f3]|] eqn:E2; [|discriminate]. injection H as <- <-.
      apply column_spec in E as (A1 & A2 & A3 & A4 & A5 & A6). apply IH in E2 as (B1 & B2 & B3 & B4 & B5 & B6).
      split; [eapply keys_le_trans; eauto|]. split; [constructor; auto; eapply le_has; eauto|].
      split; [congruence|]. split; [|split; auto]. intros x [<-|Hx]; auto.
  Qed.

  (** A statement whose outputs are columns with a generator. *)
  Definition outs_ok (f : fstate) (s : pstmt) : Prop :=
    Forall (has_key f) (p_outputs s) /\ (forall o, In o (p_outputs s) -> o <> "_" -> saved f o).
  Lemma outs_ok_le f g s : keys_le f g -> (forall k, saved f k -> saved g k) -> outs_ok f s -> outs_ok g s.
  Proof.
    intros L S [H1 H2]. split; [|auto]. eapply Forall_impl; [|exact H1]. intros o. now apply le_has.
  Qed.

  Lemma modifier_spec md s f r : modifier T name md s f = Some r ->
    match r with
    | MGo s1 f1 => keys_le f f1 /\ f_data f1 = f_data f /\ (outs_ok f s -> outs_ok f1 s1) /\
        (forall k, saved f k -> saved f1 k) /\ (forall k, used f1 k -> used f k)
    | MCopies _ f1 => f1 = f
    end.
  Proof.
    unfold modifier. destruct (fields md) as [|w args]; [discriminate|]. cbv zeta.
    set (m := trim_colons w).
    assert (R : forall s1, p_outputs s1 = p_outputs s -> keys_le f f /\ f_data f = f_data f /\ (outs_ok f s -> outs_ok f s1) /\
        (forall k, saved f k -> saved f k) /\ (forall k, used f k -> used f k)).
    { intros s1 E. split; [apply keys_le_refl|]. split; [auto|]. split; [|split; auto]. unfold outs_ok. now rewrite E. }
    destruct (String.eqb m "prepare" || String.eqb m "prepared")%bool; [intros [= <-]; now apply R|].
    destruct (String.eqb m "idle").
    { destruct args as [|a args]; [discriminate|]. destruct (e_parse_duration (te_env T) a); [|discriminate].
      intros [= <-]. now apply R. }
    destruct (String.eqb m "rows").
    { destruct args as [|a args]; [discriminate|]. destruct (parse_uint64 a); [|discriminate].
      destruct (match args with [b] => parse_uint64 b | _ => Some 0%N end); [|discriminate]. intros [= <-]. now apply R. }
    destruct (String.eqb m "table-size" || String.eqb m "database-size")%bool.
    { destruct args as [|a [|b [|? ?]]]; try discriminate. destruct (e_parse_bytes (te_env T) b); [|discriminate].
      intros [= <-]. now apply R. }
    destruct (String.eqb m "save-insert-id").
    { destruct (p_resultset s); [discriminate|]. destruct args as [|a args]; [discriminate|].
      destruct (column T name f 0 a) as [[o f1]|] eqn:E; [|discriminate]. intros [= <-]. cbn [fst snd].
      apply column_spec in E as (A1 & A2 & A3 & A4 & A5 & A6). split; [auto|]. split; [auto|]. split; [|auto].
      intros [O1 O2]. split; cbn [p_outputs add_outputs].
      - apply Forall_app. split; [|repeat constructor; auto]. eapply Forall_impl; [|exact O1]. intros x. now apply le_has.
      - intros x Hx Hn. apply in_app_or in Hx as [Hx|[<-|[]]]; auto. }
    destruct (String.eqb m "save-columns").
    { destruct (columns T name f 0 args) as [[os f1]|] eqn:E; [|discriminate]. intros [= <-]. cbn [fst snd].
      apply columns_spec in E as (A1 & A2 & A3 & A4 & A5 & A6). split; [auto|]. split; [auto|]. split; [|auto].
      intros [O1 O2]. split; cbn [p_outputs add_outputs].
      - apply Forall_app. split; [|auto]. eapply Forall_impl; [|exact O1]. intros x. now apply le_has.
      - intros x Hx Hn. apply in_app_or in Hx as [Hx|Hx]; auto. }
    destruct (String.eqb m "copies"); [|discriminate].
    destruct args as [|a args]; [discriminate|]. destruct (atoi a) as [n|]; [|discriminate].
    destruct (n <? 0)%Z; [discriminate|]. destruct (n =? 1)%Z; intros [= <-]; [now apply R|reflexivity].
  Qed.
  Lemma modifiers_spec mods : forall s f r, modifiers T name mods s f = Some r ->
    match r with
    | MGo s1 f1 => keys_le f f1 /\ f_data f1 = f_data f /\ (outs_ok f s -> outs_ok f1 s1) /\
        (forall k, saved f k -> saved f1 k) /\ (forall k, used f1 k -> used f k)
    | MCopies _ f1 => keys_le f f1 /\ f_data f1 = f_data f /\
        (forall k, saved f k -> saved f1 k) /\ (forall k, used f1 k -> used f k)
    end.
  Proof.
    induction mods as [|m mods IH]; intros s f r H; cbn in H.
    - injection H as <-. split; [apply keys_le_refl|]. auto.
    - destruct (modifier T name m s f) as [[s1 f1|n f1]|] eqn:E; try discriminate.
      + apply modifier_spec in E as (A1 & A2 & A3 & A4 & A5). apply IH in H. destruct r as [s2 f2|n f2].
        * destruct H as (B1 & B2 & B3 & B4 & B5). split; [eapply keys_le_trans; eauto|]. split; [congruence|]. auto.
        * destruct H as (B1 & B2 & B3 & B4). split; [eapply keys_le_trans; eauto|]. split; [congruence|]. auto.
      + injection H as <-. apply modifier_spec in E. subst. split; [apply keys_le_refl|]. auto.
  Qed.

  (** ** Inputs *)
  (** Each input has a generator; @PREV follows a key (or is a saved column itself). *)
  Definition ins_ok (f : fstate) (ins : list string) : Prop :=
    forall i k, nth_error ins i = Some k ->
      has_key f k \/ (k = "@PREV" /\ exists j p, (j < i)%nat /\ nth_error ins j = Some p /\ p <> "@PREV").
  Lemma ins_ok_le f g ins : keys_le f g -> ins_ok f ins -> ins_ok g ins.
  Proof. intros L H i k Hi. destruct (H i k Hi) as [A|A]; auto. left. eapply le_has; eauto. Qed.

  Lemma one_input_ok prev n f fmt f1 : one_input T name prev n f = Some (fmt, f1) ->
    (has_key f1 n \/ (n = "@PREV" /\ exists p, In p prev /\ p <> "@PREV")) /\
    (forall k, saved f k -> saved f1 k) /\ (forall k, used f1 k -> used f k \/ k = n) /\
    (forall m, n = String "@" m -> data_same f f1).
  Proof.
    unfold one_input. intros H.
    assert (P : match prev_gen (f_keys f) prev with Some p => Some (k_fmt p, f) | None => None end = Some (fmt, f1) ->
      f1 = f /\ exists p, In p prev /\ p <> "@PREV").
    { rewrite prev_gen_last. destruct (find _ prev) as [p|] eqn:E; [|discriminate].
      destruct (sget p (f_keys f)); [|discriminate]. intros [= _ <-]. split; auto. exists p.
      apply find_some in E as [A B]. split; auto. intros ->. discriminate. }
    destruct (sget n (f_keys f)) as [k|] eqn:E.
    - destruct (k_col k).
      + injection H as <- <-. unfold has_key, saved, used. cbn [f_keys f_refs]. split; [left; congruence|].
        split; [|split].
        * intros x Hx. apply skeys_sset. auto.
        * intros x (c & Hc). rewrite sget_sset in Hc. destruct (String.eqb_spec x n); [auto|]. left. eauto.
        * intros _ _. apply data_same_eq. reflexivity.
      + assert (f1 = f) as ->.
        { destruct (String.eqb n "@PREV"); [now apply P in H|congruence]. }
        split; [left; unfold has_key; congruence|]. split; [auto|]. split; [auto|]. intros _ _. apply data_same_refl.
    - destruct (String.eqb_spec n "@PREV") as [->|X].
      + apply P in H as [-> H]. split; [auto|]. split; [auto|]. split; [auto|]. intros _ _. apply data_same_refl.
      + destruct (sget (cfg_key n) (f_data f)) as [d|]; [|discriminate].
        destruct (te_make T (d_gen d) n (d_params d)) as [w|]; [|discriminate]. injection H as <- <-.
        unfold has_key, saved, used. cbn [f_keys f_refs]. split; [left; rewrite sget_sset, String.eqb_refl; discriminate|].
        split; [auto|]. split; [auto|]. intros m -> x Hx. cbn [f_data].
        destruct (String.eqb (d_scope d) ""); [|tauto]. unfold rowish. rewrite sget_sset.
        destruct (String.eqb_spec x (String "@" m)); [now apply Hx in e|tauto].
  Qed.
  Lemma inputs_ok pr ks : forall prev f fmts ins f' fmts',
    inputs T name pr ks prev f fmts = Some (ins, f', fmts') ->
    ins_ok f (rev prev) ->
    (forall k, In k ks -> exists m, trim_call k = String "@" m) ->
    ins_ok f' ins /\ (forall k, saved f k -> saved f' k) /\
    (forall k, used f' k -> used f k \/ In k (map trim_call ks)) /\ data_same f f'.
  Proof.
    induction ks as [|k ks IH]; intros prev f fmts ins f' fmts' H O SH.
    - cbn in H. injection H as <- <- <-. split; [auto|]. split; [auto|]. split; [auto|]. apply data_same_refl.
    - rewrite inputs_cons in H. destruct (one_input _ _ _ _ _) as [[w f1]|] eqn:E; [|discriminate].
      pose proof (one_input_mono _ _ _ _ _ _ _ E) as LE.
      destruct (one_input_ok _ _ _ _ _ E) as (A1 & A2 & A3 & A4).
      apply IH in H.
      + destruct H as (B1 & B2 & B3 & B4). split; [auto|]. split; [auto|]. split.
        * intros x Hx. cbn [map In]. destruct (B3 x Hx) as [Y|Y]; auto. destruct (A3 x Y); auto.
        * destruct (SH k) as [m Hm]; [now left|]. eapply data_same_trans; [|exact B4]. eauto.
      + cbn [rev]. intros i x Hi. destruct (Nat.lt_ge_cases i (List.length (rev prev))) as [Hl|Hl].
        * rewrite nth_error_app1 in Hi by auto. destruct (O i x Hi) as [Y|(-> & j & p & Hj & Hp & Hn)].
          -- left. eapply le_has; eauto.
          -- right. split; auto. exists j, p. split; auto. rewrite nth_error_app1 by lia. auto.
        * rewrite nth_error_app2 in Hi by auto. destruct (i - List.length (rev prev))%nat eqn:D; [|now destruct n].
          cbn in Hi. injection Hi as <-. destruct A1 as [Y|(-> & p & Hp & Hn)]; auto. right. split; auto.
          apply in_rev in Hp. apply In_nth_error in Hp as [j Hj]. exists j, p.
          assert (j < List.length (rev prev))%nat by (apply nth_error_Some; congruence).
          split; [lia|]. split; auto. rewrite nth_error_app1 by auto. auto.
      + intros x Hx. apply SH. now right.
  Qed.

  Lemma expand_spec q f q' f' : expand_csv T q f = Some (q', f') ->
    f_keys f' = f_keys f /\ f_refs f' = f_refs f /\ data_same f f'.
  Proof.
    unfold expand_csv. destruct (find_csv q) as [[[[b ds] t] r]|]; [|intros [= <- <-]; auto using data_same_refl].
    destruct (digits_value 0 ds) as [n|]; [|discriminate]. destruct (n <? 2 ^ 31)%N; [|discriminate].
    destruct (csv_keys _ _ _) as [[ks data']|] eqn:E; [|discriminate]. intros [= <- <-]. cbn [fst snd f_keys f_refs].
    split; [auto|]. split; [auto|]. intros n0 _. cbn [f_data].
    destruct (tokens_exist (trim_space t)) as (l & Hl & Cl). rewrite <- Hl in E. rewrite find_keys_sql in E by auto.
    apply csv_keys_spec in E as (_ & _ & E); auto.
  Qed.

  Lemma key_at_sign l k : clear l -> In k (key_texts l) -> exists m, trim_call k = String "@" m.
  Proof.
    intros Cl Hk. assert (X : In (trim_call k) (key_names l)) by (rewrite <- trims_texts by auto; now apply in_map).
    apply clear_shape in X as (n & -> & _); auto. now exists n.
  Qed.

  #[local] Hint Resolve keys_le_trans data_same_trans : core.

  (** All about a finished statement. *)
  Lemma finish_spec cn q s f s' f' : finish T name cn q s f = Some (s', f') ->
    keys_le f f' /\ data_same f f' /\ (forall k, saved f k -> saved f' k) /\
    (forall k, used f' k -> used f k \/ In k (p_inputs s')) /\
    ins_ok f' (p_inputs s') /\ List.length (p_calls s') = List.length (p_inputs s') /\
    exists q', s' = set_query s q' (p_inputs s') (p_calls s').
  Proof.
    rewrite finish_bind. destruct (expand_csv _ _ _) as [[q1 f1]|] eqn:E; [|discriminate].
    apply expand_spec in E as (E1 & E2 & E3). intros H.
    destruct (tokens_exist q1) as (l & <- & Cl).
    pose proof (bind_inv T name l s f1 s' f' Cl H) as (q' & Es & LE).
    assert (I1 : p_inputs s' = key_names l) by now rewrite Es.
    assert (I2 : p_calls s' = key_calls l) by now rewrite Es.
    assert (G : ins_ok f' (key_names l) /\ (forall k, saved f1 k -> saved f' k) /\
      (forall k, used f' k -> used f1 k \/ In k (key_names l)) /\ data_same f1 f').
    { unfold bind_stmt in H. rewrite find_keys_sql in H by auto. destruct (key_texts l) as [|k ks] eqn:X.
      - injection H as _ <-. apply calls_nil_keys in X. rewrite X. split; [intros [|i] x; discriminate|].
        split; [auto|]. split; [auto|]. apply data_same_refl.
      - rewrite <- X in H. destruct (inputs _ _ _ _ _ _ _) as [[[ins f2] fmts]|] eqn:I; [|discriminate].
        injection H as H <-. rewrite <- H in I1. cbn in I1. subst ins.
        apply inputs_ok in I.
        + now rewrite trims_texts in I by auto.
        + intros [|i] x; discriminate.
        + intros x Hx. now apply key_at_sign with l. }
    destruct G as (G1 & G2 & G3 & G4).
    split; [intros k v Hk; apply LE; now rewrite E1|].
    split; [eapply data_same_trans; eauto|].
    unfold saved, used in *. rewrite E2 in *. split; [auto|]. rewrite I1, I2. split; [auto|]. split; [auto|].
    split; [clear; induction l as [|[]]; cbn; auto|]. exists q'. auto.
  Qed.

  (** ** Copies and statements *)
  Definition multi_of (s s1 : pstmt) : Prop := s = s1 \/ exists m, s = set_multi s1 m.

  Definition stmt_ok (f : fstate) (s : pstmt) : Prop :=
    outs_ok f s /\ ins_ok f (p_inputs s) /\ List.length (p_calls s) = List.length (p_inputs s).
  Lemma stmt_ok_le f g s : keys_le f g -> (forall k, saved f k -> saved g k) -> stmt_ok f s -> stmt_ok g s.
  Proof. intros L S (A & B & C). split; [eapply outs_ok_le; eauto|]. split; [eapply ins_ok_le; eauto|auto]. Qed.

  Lemma new_outs q f : outs_ok f (new_stmt name q).
  Proof. split; cbn; [constructor|easy]. Qed.
  Lemma see_ddl_same s f : keys_le f (see_ddl s f) /\ f_data (see_ddl s f) = f_data f /\ f_refs (see_ddl s f) = f_refs f.
  Proof. split; [apply keys_le_eq; reflexivity|auto]. Qed.

  Lemma copy_stmt_spec cn q mods f s f' : copy_stmt T name cn q mods f = Some (s, f') ->
    keys_le f f' /\ data_same f f' /\ (forall k, saved f k -> saved f' k) /\
    (forall k, used f' k -> used f k \/ In k (p_inputs s)) /\ stmt_ok f' s /\
    exists s0 f0, finish T name cn q s0 f0 = Some (s, f') /\ data_same f f0 /\ p_prepare s = p_prepare s0.
  Proof.
    unfold copy_stmt. destruct (modifiers _ _ _ _ _) as [[s0 f0|]|] eqn:M; try discriminate. intros H.
    apply modifiers_spec in M as (M1 & M2 & M3 & M4 & M5).
    destruct (see_ddl_same (new_stmt name q) f) as (D1 & D2 & D3).
    pose proof H as F. apply finish_spec in H as (F1 & F2 & F3 & F4 & F5 & F6 & q' & F7).
    change (forall k, saved f k -> saved f0 k) in M4. change (forall k, used f0 k -> used f k) in M5.
    assert (D : data_same f f0) by (apply data_same_eq; congruence).
    split; [now eauto using keys_le_trans|]. split; [now eauto using data_same_trans|]. split; [auto|].
    split; [intros k Hk; destruct (F4 k Hk); auto|]. split.
    - split; [|split; auto]. destruct (outs_ok_le f0 f' s0 F1 F3 (M3 (new_outs _ _))) as [O1 O2].
      unfold outs_ok. rewrite F7. cbn. split; auto.
    - exists s0, f0. split; auto. split; auto. now rewrite F7.
  Qed.

  Lemma copies_spec n : forall i q mods f ss f', copies T name i n q mods f = Some (ss, f') ->
    List.length ss = n /\ keys_le f f' /\ data_same f f' /\ (forall k, saved f k -> saved f' k) /\
    (forall k, used f' k -> used f k \/ exists s, In s ss /\ In k (p_inputs s)) /\ Forall (stmt_ok f') ss /\
    (forall s, In s ss -> exists cn s0 f0 f1, finish T name cn q s0 f0 = Some (s, f1) /\ keys_le f1 f' /\
       data_same f f0 /\ p_prepare s = p_prepare s0).
  Proof.
    induction n as [|n IH]; intros i q mods f ss f' H; cbn in H.
    - injection H as <- <-. split; [auto|]. split; [apply keys_le_refl|]. split; [apply data_same_refl|].
      split; [auto|]. split; [auto|]. split; [constructor|easy].
    - destruct (copy_stmt _ _ _ _ _ _) as [[s f1]|] eqn:E; [|discriminate]. cbn [fst snd] in H.
      destruct (copies _ _ _ _ _ _ _) as [[ss1 f2]|] eqn:E2; [|discriminate]. injection H as <- <-.
      apply copy_stmt_spec in E as (A1 & A2 & A3 & A4 & A5 & s0 & f0 & A6 & A7 & A8).
      apply IH in E2 as (B0 & B1 & B2 & B3 & B4 & B5 & B6). cbn [fst snd List.length].
      split; [auto|]. split; [now eauto using keys_le_trans|]. split; [now eauto using data_same_trans|]. split; [auto|].
      split; [|split].
      + intros k Hk. destruct (B4 k Hk) as [Y|(x & Hx & Y)]; [|right; exists x; split; [now right|auto]].
        destruct (A4 k Y); auto. right. exists s. split; [now left|auto].
      + constructor; auto. eapply stmt_ok_le; eauto.
      + intros x [<-|Hx].
        * exists i, s0, f0, f1. auto.
        * destruct (B6 x Hx) as (cn & x0 & g0 & g1 & X1 & X2 & X3 & X4). exists cn, x0, g0, g1.
          split; [auto|]. split; [auto|]. split; [eauto using data_same_trans|auto].
  Qed.

  Lemma statements_spec str mods f ss f' : statements T name str mods f = Some (ss, f') ->
    keys_le f f' /\ data_same f f' /\ (forall k, saved f k -> saved f' k) /\
    (forall k, used f' k -> used f k \/ exists s, In s ss /\ In k (p_inputs s)) /\ Forall (stmt_ok f') ss /\
    (forall s, In s ss -> exists cn s0 f0 s1 f1, finish T name cn (trim_space str) s0 f0 = Some (s1, f1) /\ keys_le f1 f' /\
       data_same f f0 /\ p_prepare s1 = p_prepare s0 /\ multi_of s s1).
  Proof.
    unfold statements. set (q := trim_space str).
    destruct (modifiers _ _ _ _ _) as [[s0 f0|n f0]|] eqn:M; try discriminate;
      apply modifiers_spec in M; destruct (see_ddl_same (new_stmt name q) f) as (D1 & D2 & D3).
    - destruct M as (M1 & M2 & M3 & M4 & M5).
      destruct (finish _ _ _ _ _ _) as [[s f1]|] eqn:F; [|discriminate]. intros [= <- <-]. cbn [fst snd].
      pose proof F as F0. apply finish_spec in F as (F1 & F2 & F3 & F4 & F5 & F6 & q' & F7).
      change (forall k, saved f k -> saved f0 k) in M4. change (forall k, used f0 k -> used f k) in M5.
      assert (D : data_same f f0) by (apply data_same_eq; congruence).
      split; [now eauto using keys_le_trans|]. split; [now eauto using data_same_trans|]. split; [auto|]. split; [|split].
      + intros k Hk. destruct (F4 k Hk) as [Y|Y]; auto. right. exists s. split; [now left|auto].
      + constructor; [|constructor]. split; [|split; auto].
        destruct (outs_ok_le f0 f1 s0 F1 F3 (M3 (new_outs _ _))) as [O1 O2]. unfold outs_ok. rewrite F7. cbn. split; auto.
      + intros x [<-|[]]. exists 0%N, s0, f0, s, f1. split; [auto|]. split; [apply keys_le_refl|]. split; [auto|].
        split; [now rewrite F7|]. now left.
    - destruct M as (M1 & M2 & M4 & M5).
      change (forall k, saved f k -> saved f0 k) in M4. change (forall k, used f0 k -> used f k) in M5.
      assert (D : data_same f f0) by (apply data_same_eq; congruence).
      assert (L : keys_le f f0) by eauto using keys_le_trans.
      destruct (n =? 0)%N.
      + intros [= <- <-]. split; [auto|]. split; [auto|]. split; [auto|]. split; [auto|]. split; [constructor|easy].
      + destruct (copies _ _ _ _ _ _ _) as [[ss1 f1]|] eqn:E; [|discriminate]. cbn [fst snd].
        apply copies_spec in E as (_ & B1 & B2 & B3 & B4 & B5 & B6).
        destruct ss1 as [|s1 ss1]; [discriminate|]. intros [= <- <-].
        match goal with |- context[(if ?b then _ else _) :: _] => generalize b; intros mu end.
        split; [now eauto using keys_le_trans|]. split; [now eauto using data_same_trans|]. split; [auto|]. split; [|split].
        * intros k Hk. destruct (B4 k Hk) as [Y|(x & [<-|Hx] & Y)]; auto; right.
          -- eexists; split; [now left|]. destruct mu; exact Y.
          -- exists x. split; [now right|auto].
        * inversion B5 as [|? ? X1 X2]; subst. constructor; auto. destruct mu; auto.
        * intros x [Hx|Hx].
          -- destruct (B6 s1) as (cn & x0 & g0 & g1 & X1 & X2 & X3 & X4); [now left|]. exists cn, x0, g0, s1, g1.
             split; [auto|]. split; [auto|]. split; [eauto using data_same_trans|]. split; auto.
             subst x. unfold multi_of. destruct mu; eauto.
          -- destruct (B6 x) as (cn & x0 & g0 & g1 & X1 & X2 & X3 & X4); [now right|]. exists cn, x0, g0, x, g1.
             split; [auto|]. split; [auto|]. split; [eauto using data_same_trans|]. split; auto. now left.
  Qed.
End file.
