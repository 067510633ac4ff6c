(** The allocation walk as one sequence of scope copies. *)
From Coq Require Import Sorting.Sorted.
From Verif Require Import Prelude ListAux ScopeModel ScopeSpec ScopeProofs StmtModel WorkloadModel
  WorkloadSpec WalkProofs.

(** * A weak invariant, enough to know which keys are served *)

Record W (s : scopes) (st : N) : Prop := {
  w_name : forall k ky, s_keys s k = Some ky -> k_name ky = k;
  w_none : forall k ky, s_keys s k = Some ky -> k <> NOOP_COLUMN -> s_copyOf s k = None ->
           (rl_stage (s_copiedAt s k) < st)%N;
  w_glob : NoGlobal s }.

Lemma greater_than_stage rl prev s :
  s <> SGlobal -> (rl_stage prev < rl_stage rl)%N -> greater_than rl prev s = true.
Proof.
  intros N L. destruct rl, prev. cbn in L. destruct s; try congruence; cbn; auto; lia.
Qed.

Lemma copy_W s k rl s' r st :
  W s st -> rl_stage rl = st -> (0 < st)%N -> scopes_copy s k rl = Some (s', r) ->
  W s' st /\ (forall k', kscope s' k' = kscope s k') /\
  (if served s k then exists p, r = Some p else r = None).
Proof.
  intros [W1 W2 W3] E P H. unfold scopes_copy in H. unfold served.
  destruct (String.eqb_spec k PREV) as [->|NP].
  { inv H. repeat split; auto. }
  destruct (s_keys s k) as [ky|] eqn:HK; [|discriminate].
  pose proof (W1 _ _ HK) as NM. cbn [negb andb].
  destruct (String.eqb_spec (k_name ky) NOOP_COLUMN) as [NO|NO].
  { assert (k = NOOP_COLUMN) as -> by congruence. cbn.
    destruct (s_noop s); inv H; cbn; (split; [constructor; auto|]); eauto. }
  assert (kN : k <> NOOP_COLUMN) by congruence. clear NO.
  destruct (String.eqb_spec k NOOP_COLUMN); [congruence|]. cbn [orb].
  assert (KS : kscope s k = Some (key_scope ky)) by (unfold kscope; now rewrite HK).
  rewrite KS.
  cbn [s_copiedAt s_keys s_copyOf s_copyCount s_noop s_heap] in H.
  set (ky' := Key (k_name ky) (k_column ky) (Some (key_scope ky)) (k_gen ky)) in *.
  assert (KSCOPE : forall k', match supd (s_keys s) k (Some ky') k' with
                              | Some x => Some (key_scope x) | None => None end = kscope s k').
  { intros k'. unfold supd, kscope. destruct (String.eqb_spec k k'); auto. subst k'. now rewrite HK. }
  assert (KEY : forall k0 ky0, supd (s_keys s) k (Some ky') k0 = Some ky0 ->
                exists ky1, s_keys s k0 = Some ky1 /\ k_name ky1 = k_name ky0).
  { intros k0 ky0. unfold supd. destruct (String.eqb_spec k k0); [subst k0|eauto].
    intros X; inv X. eauto. }
  destruct (greater_than rl (s_copiedAt s k) (key_scope ky)) eqn:GT; inversion H; subst s' r; clear H; cbn.
  - assert (NGk : key_scope ky <> SGlobal).
    { intros EG. rewrite EG in GT. cbn in GT. discriminate. }
    split; [|split].
    + constructor; cbn.
      * intros k0 ky0 X. destruct (KEY _ _ X) as (ky1 & A & B). rewrite <- B; eauto.
      * intros k0 ky0 X N0. destruct (KEY _ _ X) as (ky1 & A & B). rewrite NM.
        unfold supd. destruct (String.eqb_spec k k0); [discriminate|]. eauto.
      * unfold NoGlobal, kscope; cbn. intros k'. rewrite KSCOPE. intros X.
        rewrite supd_other; [auto|]. intros ->. congruence.
    + unfold kscope; cbn. exact KSCOPE.
    + rewrite supd_same. destruct (key_scope ky); try congruence; eauto.
  - split; [|split].
    + constructor; cbn.
      * intros k0 ky0 X. destruct (KEY _ _ X) as (ky1 & A & B). rewrite <- B; eauto.
      * intros k0 ky0 X N0. destruct (KEY _ _ X) as (ky1 & A & B). eauto.
      * unfold NoGlobal, kscope; cbn. intros k'. rewrite KSCOPE. apply W3.
    + unfold kscope; cbn. exact KSCOPE.
    + destruct (s_copyOf s k) as [p|] eqn:HC.
      * destruct (key_scope ky) eqn:EG; eauto.
        assert (s_copyOf s k = None) by (apply W3; now rewrite KS). congruence.
      * destruct (scope_eqb (key_scope ky) SGlobal) eqn:EG.
        { destruct (key_scope ky); cbn in EG; try discriminate. reflexivity. }
        exfalso. rewrite greater_than_stage in GT; [discriminate| |].
        -- intros X; rewrite X in EG; discriminate.
        -- specialize (W2 _ _ HK kN HC). lia.
Qed.

Definition OKW (sv : string -> bool) (s : scopes) (st : N) := W s st /\ (forall k, served s k = sv k).

Lemma copy_OKW sv s k rl s' r st :
  OKW sv s st -> rl_stage rl = st -> (0 < st)%N -> scopes_copy s k rl = Some (s', r) ->
  OKW sv s' st /\ (if sv k then exists p, r = Some p else r = None).
Proof.
  intros [A B] E P H. destruct (copy_W _ _ _ _ _ _ A E P H) as (C & D & F).
  rewrite <- B. split; auto. split; auto. intros k'. rewrite <- B. now apply served_scope.
Qed.

Lemma and_new_sc w a n w' r : and_new w a n = (w', r) -> w_sc w' = w_sc w.
Proof.
  unfold and_new, new_rate, rate_and. intros H.
  destruct (n =? 0)%N, a as [?|]; inv H; reflexivity.
Qed.

(** * One statement *)

Definition stmt_keys (s : stmt) : list string :=
  st_inputs s ++ map (fun k => if String.eqb k (st_insertId s) then PREV else k) (st_outputs s) ++
  (if String.eqb (st_insertId s) "" then [] else [st_insertId s]).

Lemma walk_inputs_copies sv st rl ins : forall sc calls sc' l,
  OKW sv sc st -> rl_stage rl = st -> (0 < st)%N ->
  walk_inputs sc rl ins calls = Some (sc', l) ->
  OKW sv sc' st /\
  copies sc (map (pair rl) ins) = Some (sc', map snd (align sv ins (map fst l))).
Proof.
  induction ins as [|k ins IH]; cbn [walk_inputs map copies align]; intros sc calls sc' l O E P H.
  - inv H. auto.
  - destruct (scopes_copy sc k rl) as [[sc1 [p|]]|] eqn:HC; try discriminate.
    + destruct (copy_OKW _ _ _ _ _ _ _ O E P HC) as [O1 S1].
      destruct calls as [|c calls]; [discriminate|].
      destruct (walk_inputs sc1 rl ins calls) as [[sc2 l2]|] eqn:HR; [|discriminate]. inv H.
      destruct (IH _ _ _ _ O1 eq_refl P HR) as [O2 C2]. split; auto.
      rewrite C2. cbn [map fst]. destruct (sv k); [reflexivity|discriminate].
    + destruct (copy_OKW _ _ _ _ _ _ _ O E P HC) as [O1 S1].
      destruct (IH _ _ _ _ O1 E P H) as [O2 C2]. split; auto.
      rewrite C2. destruct (sv k); [destruct S1; discriminate|reflexivity].
Qed.

Lemma walk_outputs_copies sv st rl iid outs : forall sc sc' l,
  OKW sv sc st -> rl_stage rl = st -> (0 < st)%N ->
  walk_outputs sc rl outs iid = Some (sc', l) ->
  OKW sv sc' st /\ length l = length outs /\
  copies sc (map (pair rl) (map (fun k => if String.eqb k iid then PREV else k) outs)) = Some (sc', l).
Proof.
  induction outs as [|k outs IH]; cbn [walk_outputs map copies length]; intros sc sc' l O E P H.
  - inv H. auto.
  - destruct (String.eqb k iid).
    + destruct (walk_outputs sc rl outs iid) as [[sc2 l2]|] eqn:HR; [|discriminate]. inv H.
      destruct (IH _ _ _ O eq_refl P HR) as (O2 & L2 & C2). split; auto. split; [cbn; lia|].
      cbn [scopes_copy]. change (String.eqb PREV PREV) with true. cbn [scopes_copy].
      unfold scopes_copy. change (String.eqb PREV PREV) with true. cbv iota.
      now rewrite C2.
    + destruct (scopes_copy sc k rl) as [[sc1 p]|] eqn:HC; [|discriminate].
      destruct (copy_OKW _ _ _ _ _ _ _ O E P HC) as [O1 S1].
      destruct (walk_outputs sc1 rl outs iid) as [[sc2 l2]|] eqn:HR; [|discriminate]. inv H.
      destruct (IH _ _ _ O1 eq_refl P HR) as (O2 & L2 & C2). split; auto. split; [cbn; lia|].
      now rewrite C2.
Qed.

Lemma map_snd_combine {A B} (l : list A) (l' : list B) : length l = length l' -> map snd (combine l l') = l'.
Proof. revert l'; induction l; intros [|b l'] H; cbn in *; try discriminate; auto. f_equal; auto. Qed.
Lemma map_fst_combine {A B} (l : list A) (l' : list B) : length l = length l' -> map fst (combine l l') = l.
Proof. revert l'; induction l; intros [|b l'] H; cbn in *; try discriminate; auto. f_equal; auto. Qed.

Lemma align_fst sv ins ps : map fst (align sv ins ps) = ins.
Proof.
  revert ps; induction ins as [|k ins IH]; intros ps; cbn; auto.
  destruct (sv k); [destruct ps|]; cbn; now rewrite IH.
Qed.

Lemma stmt_g_copies sv st rl s sc sc' d :
  OKW sv sc st -> rl_stage rl = st -> (0 < st)%N ->
  stmt_g sc rl s = Some (sc', d) ->
  OKW sv sc' st /\ length (d_outputs d) = length (st_outputs s) /\
  copies sc (map (pair rl) (stmt_keys s)) = Some (sc', map snd (uses_of sv s d)).
Proof.
  intros O E P H. unfold stmt_g in H.
  destruct (walk_inputs sc rl (st_inputs s) (st_calls s)) as [[sc1 ins]|] eqn:H1; [|discriminate].
  destruct (walk_outputs sc1 rl (st_outputs s) (st_insertId s)) as [[sc2 outs]|] eqn:H2; [|discriminate].
  destruct (walk_insert_id sc2 rl (st_insertId s)) as [[sc3 iid]|] eqn:H3; [|discriminate]. inv H.
  destruct (walk_inputs_copies _ _ _ _ _ _ _ _ O eq_refl P H1) as (O1 & C1).
  destruct (walk_outputs_copies _ _ _ _ _ _ _ _ O1 eq_refl P H2) as (O2 & L2 & C2).
  unfold walk_insert_id in H3. unfold stmt_keys, uses_of. cbn [d_inputs d_outputs d_insertId].
  rewrite !map_app, copies_app, C1, copies_app, C2, map_snd_combine by auto.
  destruct (String.eqb (st_insertId s) "").
  - inv H3. cbn. auto.
  - destruct (scopes_copy sc2 (st_insertId s) rl) as [[sc3' [p|]]|] eqn:HC; inv H3.
    destruct (copy_OKW _ _ _ _ _ _ _ O2 eq_refl P HC) as [O3 S3].
    cbn. rewrite HC. auto.
Qed.

Lemma stmt_keys_length sv s d : length (d_outputs d) = length (st_outputs s) ->
  length (stmt_keys s) = length (uses_of sv s d).
Proof.
  intros H. unfold stmt_keys, uses_of. rewrite !app_length, map_length, combine_length, H.
  assert (A : length (align sv (st_inputs s) (map fst (d_inputs d))) = length (st_inputs s)).
  { rewrite <- (map_length fst). now rewrite align_fst. }
  rewrite A. destruct (String.eqb (st_insertId s) ""); cbn; lia.
Qed.

Lemma count_stmts_eq ts trx : count_stmts ts trx = length (concat (map (ts_stmts ts) trx)).
Proof.
  unfold count_stmts.
  assert (X : forall a, fold_left (fun n t => (n + length (ts_stmts ts t))%nat) trx a = (a + length (concat (map (ts_stmts ts) trx)))%nat).
  { induction trx; intros b; cbn; [lia|]. rewrite IHtrx, app_length. lia. }
  apply X.
Qed.

(** * Flattening the allocation *)

Section Flat.
  Context (sv : string -> bool) (st : N) (lensf : nat -> nat -> list nat).
  Definition lab := (place * (string * option nat))%type.

  Definition flat_stmt (e g k : nat) (lens : list nat) (i : nat) (s : stmt) (d : sdata) : list lab :=
    mapi_from (fun j kr => (Place st e g k (block_index lens i) i j, kr)) 0
              (combine (stmt_keys s) (map snd (uses_of sv s d))).
  Definition flat_stmts e g k lens n (ss : list stmt) (ds : list sdata) : list lab :=
    concat (mapi_from (fun i sd => flat_stmt e g k lens i (fst sd) (snd sd)) n (combine ss ds)).
  Definition flat_client e g k lens c := flat_stmts e g k lens 0 (c_stmts c) (c_data c).
  Definition flat_cg e g lens n (cs : list client) : list lab :=
    concat (mapi_from (fun k c => flat_client e g k lens c) n cs).
  Definition flat_eg e n (css : list (list client)) : list lab :=
    concat (mapi_from (fun g cs => flat_cg e g (lensf e g) 0 cs) n css).
  Definition flat n (out : list (list (list client))) : list lab :=
    concat (mapi_from (fun e css => flat_eg e 0 css) n out).

  Definition block_start (lens : list nat) (t : nat) : nat := list_sum (firstn t lens).

  #[local] Arguments block_start : simpl never.

  Definition rl_of (p : place) : runlevel :=
    let lens := lensf (p_eg p) (p_cg p) in
    RL (p_stage p) (N.of_nat (p_eg p + 1)) (N.of_nat (p_cg p + 1)) (N.of_nat (p_client p + 1))
       (N.of_nat (p_trx p + 1)) (N.of_nat (p_stmt p - block_start lens (p_trx p) + 1)).

  Definition ev (l : lab) : runlevel * string := (rl_of (fst l), fst (snd l)).
  Definition ptr (l : lab) : option nat := snd (snd l).

  Hypothesis POS : (0 < st)%N.

  Lemma flat_stmt_ev rl e g k lens i s d :
    lens = lensf e g ->
    length (d_outputs d) = length (st_outputs s) ->
    rl = rl_of (Place st e g k (block_index lens i) i 0) ->
    map ev (flat_stmt e g k lens i s d) = map (pair rl) (stmt_keys s) /\
    map ptr (flat_stmt e g k lens i s d) = map snd (uses_of sv s d).
  Proof.
    intros HL HO ->. unfold flat_stmt.
    pose proof (stmt_keys_length sv s d HO) as L.
    rewrite <- (map_length snd (uses_of sv s d)) in L.
    revert L. generalize (map snd (uses_of sv s d)). generalize (stmt_keys s).
    assert (X : forall ks rs n, length ks = length rs ->
      map ev (mapi_from (fun j kr => (Place st e g k (block_index lens i) i j, kr)) n (combine ks rs)) =
      map (pair (rl_of (Place st e g k (block_index lens i) i 0))) ks /\
      map ptr (mapi_from (fun j kr => (Place st e g k (block_index lens i) i j, kr)) n (combine ks rs)) = rs).
    { induction ks as [|k0 ks IH]; intros [|r rs] n L; cbn in L; try discriminate; auto.
      inversion L as [L']. cbn. destruct (IH rs (S n) L') as [A B]. rewrite A, B. split; auto. }
    intros ks rs L. apply X. exact L.
  Qed.

  (** statements of one trx: the trx is block [t], starting at statement [b]. *)
  Lemma stmts_g_flat e g k lens t b : forall ss n sc rl sc' ds,
    stmts_g sc rl ss = Some (sc', ds) ->
    lens = lensf e g -> b = block_start lens t ->
    (forall i, (i < length ss)%nat -> block_index lens (b + n + i) = t) ->
    rl = RL st (N.of_nat (e + 1)) (N.of_nat (g + 1)) (N.of_nat (k + 1)) (N.of_nat (t + 1)) (N.of_nat n) ->
    OKW sv sc st ->
    OKW sv sc' st /\
    copies sc (map ev (flat_stmts e g k lens (b + n) ss ds)) = Some (sc', map ptr (flat_stmts e g k lens (b + n) ss ds)).
  Proof.
    induction ss as [|s ss IH]; intros n sc rl sc' ds H HL HB HI HR O; cbn in H.
    - inv H. cbn. auto.
    - destruct (stmt_g sc (next_query rl) s) as [[sc1 d]|] eqn:HS; [|discriminate].
      destruct (stmts_g sc1 (next_query rl) ss) as [[sc2 ds2]|] eqn:HT; [|discriminate]. inv H.
      set (lens := lensf e g) in *.
      assert (E : rl_stage (next_query (RL st (N.of_nat (e + 1)) (N.of_nat (g + 1)) (N.of_nat (k + 1)) (N.of_nat (t + 1)) (N.of_nat n))) = st) by reflexivity.
      destruct (stmt_g_copies _ _ _ _ _ _ _ O E POS HS) as (O1 & L1 & C1).
      unfold flat_stmts. cbn [combine mapi_from concat fst snd].
      destruct (IH (S n) sc1 _ sc' ds2 HT) as [O2 C2]; auto.
      { intros i Hi. replace (block_start lens t + S n + i)%nat with (block_start lens t + n + S i)%nat by lia.
        apply HI. cbn; lia. }
      { unfold next_query. cbn [rl_stage rl_eg rl_cg rl_client rl_trx rl_query]. f_equal. lia. }
      split; auto.
      rewrite !map_app, copies_app.
      assert (T0 : block_index lens (block_start lens t + n) = t).
      { specialize (HI 0%nat). rewrite Nat.add_0_r in HI. apply HI. cbn; lia. }
      destruct (flat_stmt_ev (next_query (RL st (N.of_nat (e + 1)) (N.of_nat (g + 1)) (N.of_nat (k + 1)) (N.of_nat (t + 1)) (N.of_nat n)))
                  e g k lens (block_start lens t + n) s d eq_refl L1) as [A B].
      { unfold rl_of, next_query. cbn [rl_stage rl_eg rl_cg rl_client rl_trx rl_query p_stage p_eg p_cg p_client p_trx p_stmt p_slot].
        fold lens. rewrite T0. f_equal. lia. }
      rewrite A, B, C1. unfold flat_stmts in C2.
      replace (block_start lens t + S n)%nat with (S (block_start lens t + n)) in C2 by lia.
      rewrite C2. reflexivity.
  Qed.

  Lemma uses_of_flags s d b e : uses_of sv s (set_flags b e d) = uses_of sv s d.
  Proof. reflexivity. Qed.

  Lemma flat_stmts_app e g k lens n ss1 ds1 ss2 ds2 : length ss1 = length ds1 ->
    flat_stmts e g k lens n (ss1 ++ ss2) (ds1 ++ ds2) =
    flat_stmts e g k lens n ss1 ds1 ++ flat_stmts e g k lens (n + length ss1) ss2 ds2.
  Proof.
    revert n ds1; induction ss1 as [|s ss1 IH]; intros n [|d ds1] L; cbn in L; try discriminate.
    - cbn. now rewrite Nat.add_0_r.
    - unfold flat_stmts in *. cbn. rewrite <- app_assoc, IH by lia. do 2 f_equal. f_equal. f_equal. lia.
  Qed.

  Lemma flat_stmts_flag e g k lens ss : forall n ds m L,
    flat_stmts e g k lens n ss (mapi_from (fun i d => set_flags (Nat.eqb i 0) (Nat.eqb (S i) L) d) m ds) =
    flat_stmts e g k lens n ss ds.
  Proof.
    induction ss as [|s ss IH]; intros n [|d ds] m L; auto.
    unfold flat_stmts in *. cbn. f_equal. apply IH.
  Qed.

  Lemma block_index_app done rest i : (list_sum done <= i)%nat ->
    block_index (done ++ rest) i = (length done + block_index rest (i - list_sum done))%nat.
  Proof.
    revert i; induction done as [|l done IH]; intros i H; [cbn; now rewrite Nat.sub_0_r|].
    change (list_sum (l :: done)) with (l + list_sum done)%nat in *.
    cbn [app block_index length]. destruct (Nat.ltb_spec i l); [lia|].
    rewrite IH by lia. replace (i - l - list_sum done)%nat with (i - (l + list_sum done))%nat by lia. reflexivity.
  Qed.
  Lemma block_start_app done rest : block_start (done ++ rest) (length done) = list_sum done.
  Proof. unfold block_start. rewrite firstn_app, Nat.sub_diag, firstn_all. cbn. now rewrite app_nil_r. Qed.

  (** all trx of one client *)
  Lemma trxs_g_flat ts e g k : forall trx done sc rl sc' ds,
    let len := fun t => length (ts_stmts ts t) in
    trxs_g ts sc rl trx = Some (sc', ds) ->
    lensf e g = map len (done ++ trx) ->
    rl = RL st (N.of_nat (e + 1)) (N.of_nat (g + 1)) (N.of_nat (k + 1)) (N.of_nat (length done)) (rl_query rl) ->
    OKW sv sc st ->
    OKW sv sc' st /\ length ds = length (concat (map (ts_stmts ts) trx)) /\
    copies sc (map ev (flat_stmts e g k (lensf e g) (list_sum (map len done)) (concat (map (ts_stmts ts) trx)) ds))
    = Some (sc', map ptr (flat_stmts e g k (lensf e g) (list_sum (map len done)) (concat (map (ts_stmts ts) trx)) ds)).
  Proof.
    induction trx as [|t trx IH]; intros done sc rl sc' ds len H HL HR O; cbn in H.
    - inv H. cbn. auto.
    - destruct (stmts_g sc (next_trx rl) (ts_stmts ts t)) as [[sc1 d1]|] eqn:H1; [|discriminate].
      destruct (trxs_g ts sc1 (next_trx rl) trx) as [[sc2 d2]|] eqn:H2; [|discriminate]. inv H.
      assert (HL' : lensf e g = map len done ++ len t :: map len trx) by (now rewrite HL, map_app).
      pose proof (stmts_g_length _ _ _ _ _ H1) as D1.
      assert (BS : list_sum (map len done) = block_start (lensf e g) (length done)).
      { rewrite HL'. rewrite <- (map_length len done) at 1. now rewrite block_start_app. }
      destruct (stmts_g_flat e g k (lensf e g) (length done) (list_sum (map len done)) (ts_stmts ts t) 0
                  sc (next_trx rl) sc1 d1 H1 eq_refl BS) as [O1 C1]; auto.
      { intros i Hi. rewrite HL', block_index_app by lia. rewrite map_length.
        replace (list_sum (map len done) + 0 + i - list_sum (map len done))%nat with i by lia.
        cbn [block_index]. destruct (Nat.ltb_spec i (len t)) as [X|X]; [lia|]. unfold len in X. lia. }
      { rewrite HR. unfold next_trx. cbn [rl_stage rl_eg rl_cg rl_client rl_trx rl_query p_stage p_eg p_cg p_client p_trx p_stmt p_slot]. f_equal; lia. }
      rewrite Nat.add_0_r in C1.
      destruct (IH (done ++ [t]) sc1 (next_trx rl) sc' d2 H2) as (O2 & D2 & C2); auto.
      { rewrite HL, <- app_assoc. reflexivity. }
      { rewrite HR. unfold next_trx. cbn [rl_stage rl_eg rl_cg rl_client rl_trx rl_query p_stage p_eg p_cg p_client p_trx p_stmt p_slot]. rewrite app_length. cbn [length]. f_equal; lia. }
      split; auto. split.
      { cbn. rewrite !app_length. unfold flag_trx. rewrite length_mapi_from. lia. }
      cbn [map concat]. rewrite flat_stmts_app by (unfold flag_trx; rewrite length_mapi_from; auto).
      unfold flag_trx. rewrite flat_stmts_flag.
      rewrite !map_app, copies_app, C1.
      assert (LS : list_sum (map len (done ++ [t])) = (list_sum (map len done) + length (ts_stmts ts t))%nat).
      { rewrite map_app, list_sum_app. cbn. unfold len. lia. }
      change (fun t0 => length (ts_stmts ts t0)) with len in C2.
      rewrite LS in C2. rewrite C2. reflexivity.
  Qed.

  (** the clients of one client group *)
  Lemma walk_clients_flat ts ws cg cp ep cq ct e g :
    Forall (fun t => ts_stmts ts t <> []) (cg_trx cg) ->
    lensf e g = trx_lens ts cg ->
    forall todo k w rl w' rl' cs,
    walk_clients ts ws cg cp ep cq ct w rl (N.of_nat k) todo = Some (w', rl', cs) ->
    rl_stage rl = st -> rl_eg rl = N.of_nat (e + 1) -> rl_cg rl = N.of_nat (g + 1) ->
    OKW sv (w_sc w) st ->
    OKW sv (w_sc w') st /\ length cs = todo /\
    rl_stage rl' = st /\ rl_eg rl' = N.of_nat (e + 1) /\ rl_cg rl' = N.of_nat (g + 1) /\
    copies (w_sc w) (map ev (flat_cg e g (lensf e g) k cs)) = Some (w_sc w', map ptr (flat_cg e g (lensf e g) k cs)).
  Proof.
    intros NE HL. induction todo as [|todo IH]; intros k w rl w' rl' cs H R1 R2 R3 O; cbn [walk_clients] in H.
    - inv H. cbn. repeat split; auto; apply O.
    - destruct (and_new w cq (cg_qps cg)) as [w1 qps] eqn:Q1.
      destruct (and_new w1 ct (cg_tps cg)) as [w2 tps] eqn:Q2.
      assert (SC : w_sc w2 = w_sc w).
      { apply and_new_sc in Q1. apply and_new_sc in Q2. congruence. }
      pose proof (walk_trx_g ts (ws && negb (cg_disableStats cg)) (cg_trx cg) NE (w_sc w2)
        (RL (rl_stage rl) (rl_eg rl) (rl_cg rl) (N.of_nat k + 1) 0 (rl_query rl)) 0 []
        (repeat stmt_nil (count_stmts ts (cg_trx cg))) [] eq_refl eq_refl) as WT.
      rewrite repeat_length, count_stmts_eq in WT. specialize (WT eq_refl). cbn [app] in WT.
      cbn [rl_stage rl_eg rl_cg rl_client rl_trx rl_query] in H.
      rewrite count_stmts_eq in H. rewrite WT in H. clear WT.
      destruct (trxs_g ts (w_sc w2) (RL (rl_stage rl) (rl_eg rl) (rl_cg rl) (N.of_nat k + 1) 0 (rl_query rl)) (cg_trx cg))
        as [[sc3 dn]|] eqn:HT; [|discriminate].
      match type of H with
      | match walk_clients _ _ _ _ _ _ _ (WSt sc3 _) ?r _ _ with _ => _ end = _ => set (rl3 := r) in *
      end.
      assert (R : rl_stage rl3 = st /\ rl_eg rl3 = N.of_nat (e + 1) /\ rl_cg rl3 = N.of_nat (g + 1)).
      { subst rl3. destruct (rev (cg_trx cg)); cbn; auto. }
      destruct R as (R4 & R5 & R6). clearbody rl3.
      assert (K1 : (N.of_nat k + 1)%N = N.of_nat (S k)) by lia.
      destruct (walk_clients ts ws cg cp ep cq ct (WSt sc3 (w_next w2)) rl3 (N.of_nat k + 1) todo)
        as [[[w4 rl4] cs4]|] eqn:HC; [|discriminate].
      rewrite K1 in HC.
      destruct (trxs_g_flat ts e g k (cg_trx cg) [] (w_sc w2) _ sc3 dn HT HL) as (O3 & D3 & C3).
      2:{ now rewrite SC. }
      { cbn [rl_stage rl_eg rl_cg rl_client rl_trx rl_query p_stage p_eg p_cg p_client p_trx p_stmt p_slot]. rewrite R1, R2, R3. f_equal; cbn [length]; lia. }
      destruct (IH (S k) _ _ _ _ _ HC R4 R5 R6) as (O4 & L4 & R7 & R8 & R9 & C4); auto.
      inv H. split; auto. split; [cbn; lia|]. split; auto. split; auto. split; auto.
      unfold flat_cg. cbn [mapi_from concat].
      unfold flat_client at 1 3. cbn [c_stmts c_data].
      rewrite !map_app, copies_app. cbn [map list_sum fold_right] in C3. rewrite SC in C3.
      cbn in C3. rewrite C3. unfold flat_cg in C4. cbn [w_sc] in C4. rewrite C4. reflexivity.
  Qed.

  (** the client groups of one exec group *)
  Lemma walk_cgs_flat ts ws wl ep eq_ et e : forall refs g w rl w' rl' css,
    walk_cgs ts ws wl ep eq_ et w rl g refs = Some (w', rl', css) ->
    (forall g' r cg, nth_error refs g' = Some r -> nth_error wl r = Some cg ->
        Forall (fun t => ts_stmts ts t <> []) (cg_trx cg) /\ lensf e (g + g') = trx_lens ts cg) ->
    rl_stage rl = st -> rl_eg rl = N.of_nat (e + 1) ->
    OKW sv (w_sc w) st ->
    OKW sv (w_sc w') st /\ rl_stage rl' = st /\ rl_eg rl' = N.of_nat (e + 1) /\
    copies (w_sc w) (map ev (flat_eg e g css)) = Some (w_sc w', map ptr (flat_eg e g css)).
  Proof.
    induction refs as [|r refs IH]; intros g w rl w' rl' css H HW R1 R2 O; cbn [walk_cgs] in H.
    - inv H. cbn. repeat split; auto; apply O.
    - destruct (nth_error wl r) as [cg|] eqn:HR; [|discriminate].
      destruct (HW 0%nat r cg eq_refl HR) as [NE HL]. rewrite Nat.add_0_r in HL.
      destruct (and_new w eq_ (cg_qpsClients cg)) as [w1 qps] eqn:Q1.
      destruct (and_new w1 et (cg_tpsClients cg)) as [w2 tps] eqn:Q2.
      assert (SC : w_sc w2 = w_sc w).
      { apply and_new_sc in Q1. apply and_new_sc in Q2. congruence. }
      destruct (walk_clients ts ws cg (w_next w2) ep qps tps (WSt (w_sc w2) (S (w_next w2)))
         (RL (rl_stage rl) (rl_eg rl) (N.of_nat (g + 1)) (rl_client rl) (rl_trx rl) (rl_query rl)) 0 (N.to_nat (cg_clients cg)))
         as [[[w4 rl4] cs]|] eqn:HC; [|discriminate].
      destruct (walk_cgs ts ws wl ep eq_ et w4 rl4 (S g) refs) as [[[w5 rl5] css5]|] eqn:HG; [|discriminate]. inv H.
      destruct (walk_clients_flat ts ws cg _ ep qps tps e g NE HL (N.to_nat (cg_clients cg)) 0%nat _ _ _ _ _ HC)
        as (O4 & L4 & R4 & R5 & R6 & C4); auto.
      { cbn. now rewrite SC. }
      destruct (IH (S g) w4 rl4 w' rl' css5 HG) as (O5 & R7 & R8 & C5); auto.
      { intros g' r' cg' A B. destruct (HW (S g') r' cg' A B) as [X Y]. split; auto. rewrite <- Y. f_equal. lia. }
      split; auto. split; auto. split; auto.
      unfold flat_eg. cbn [mapi_from concat]. rewrite !map_app, copies_app.
      cbn [w_sc] in C4. rewrite SC in C4. rewrite C4. unfold flat_eg in C5. rewrite C5. reflexivity.
  Qed.

  (** the exec groups *)
  Lemma walk_egs_flat ts ws wl sq stp : forall gs e w rl w' rl' out,
    walk_egs ts ws wl sq stp w rl e gs = Some (w', rl', out) ->
    (forall e' g cg, cg_at wl gs e' g = Some cg ->
        Forall (fun t => ts_stmts ts t <> []) (cg_trx cg) /\ lensf (e + e') g = trx_lens ts cg) ->
    rl_stage rl = st ->
    OKW sv (w_sc w) st ->
    OKW sv (w_sc w') st /\
    copies (w_sc w) (map ev (flat e out)) = Some (w_sc w', map ptr (flat e out)).
  Proof.
    induction gs as [|refs gs IH]; intros e w rl w' rl' out H HW R1 O; cbn [walk_egs] in H.
    - inv H. cbn. auto.
    - destruct refs as [|r0 refs]; [discriminate|].
      destruct (nth_error wl r0) as [cg0|] eqn:HR; [|discriminate].
      destruct (and_new w sq (cg_qpsExecGroup cg0)) as [w1 qps] eqn:Q1.
      destruct (and_new w1 stp (cg_tpsExecGroup cg0)) as [w2 tps] eqn:Q2.
      assert (SC : w_sc w2 = w_sc w).
      { apply and_new_sc in Q1. apply and_new_sc in Q2. congruence. }
      destruct (walk_cgs ts ws wl (w_next w2) qps tps (WSt (w_sc w2) (S (w_next w2)))
         (RL (rl_stage rl) (N.of_nat (e + 1)) (rl_cg rl) (rl_client rl) (rl_trx rl) (rl_query rl)) 0 (r0 :: refs))
         as [[[w4 rl4] css]|] eqn:HC; [|discriminate].
      destruct (walk_egs ts ws wl sq stp w4 rl4 (S e) gs) as [[[w5 rl5] csss]|] eqn:HG; [|discriminate]. inv H.
      destruct (walk_cgs_flat ts ws wl _ qps tps e (r0 :: refs) 0%nat _ _ _ _ _ HC) as (O4 & R4 & R5 & C4); auto.
      { intros g' r cg A B. destruct (HW 0%nat g' cg) as [X Y].
        - unfold cg_at. cbn [nth_error]. rewrite A. exact B.
        - split; auto. rewrite <- Y. f_equal. lia. }
      { cbn. now rewrite SC. }
      destruct (IH (S e) w4 rl4 w' rl' csss HG) as (O5 & C5); auto.
      { intros e' g cg A. destruct (HW (S e') g cg A) as [X Y]. split; auto. rewrite <- Y. f_equal. lia. }
      split; auto.
      unfold flat. cbn [mapi_from concat]. rewrite !map_app, copies_app.
      cbn [w_sc] in C4. rewrite SC in C4. rewrite C4. unfold flat in C5. rewrite C5. reflexivity.
  Qed.
End Flat.
#[global] Arguments block_start : simpl never.
