(** Proofs about the values of a client's statements: which calls return the same, saved columns. *)
From Coq Require Import Sorting.Sorted.
From Verif Require Import Prelude ListAux ScopeModel ScopeSpec CallProofs StmtModel WorkloadModel WorkloadSpec ClientModel ClientSpec
  ClientProofs ClientConnProofs ClientTrxProofs ValueModel ValueSpec ValueProofs.
#[local] Open Scope list_scope.

(** ** Histories of uses *)
Section Uses.
  Context {V : Type} (counter : runcount -> N).
  Notation calling := (calling counter).
  Notation returns := (returns (V := V) counter).

  Lemma calling_app a b : forall seen, calling seen (a ++ b) = calling seen a ++ calling (rev (map (fun u => counter (snd u)) a) ++ seen) b.
  Proof.
    induction a as [|u a IH]; intros seen; [reflexivity|]. cbn [ScopeSpec.calling app map rev]. rewrite IH, <- app_assoc. cbn [app].
    destruct (new_call counter seen u); reflexivity.
  Qed.

  Lemma returns_nth us : forall seen newest vs n u, List.length vs = List.length (calling seen us) -> nth_error us n = Some u ->
    nth_error (returns seen newest us vs) n =
    match List.length (calling seen (firstn (S n) us)) with O => Some newest | S m => nth_error vs m end.
  Proof.
    induction us as [|x us IH]; intros seen newest vs n u L N; [destruct n; discriminate|].
    cbn [ScopeSpec.calling ScopeSpec.returns] in *. change (firstn (S n) (x :: us)) with (x :: firstn n us). cbn [ScopeSpec.calling].
    destruct (new_call counter seen x) eqn:E.
    - destruct vs as [|v vs]; [discriminate|]. injection L as L. destruct n as [|n].
      + reflexivity.
      + cbn [nth_error] in *. rewrite (IH _ _ _ _ _ L N). change (firstn (S n) us) with (firstn (S n) us). cbn [List.length].
        destruct (List.length (calling (counter (snd x) :: seen) (firstn (S n) us))); reflexivity.
    - destruct n as [|n]; [reflexivity|]. cbn [nth_error] in *. rewrite (IH _ _ _ _ _ L N). reflexivity.
  Qed.

  Lemma calling_none seen us : (forall u, In u us -> fst u = false /\ In (counter (snd u)) seen) -> calling seen us = [].
  Proof.
    revert seen. induction us as [|u us IH]; intros seen H; [reflexivity|]. cbn [ScopeSpec.calling]. destruct (H u (or_introl eq_refl)) as [A B].
    unfold new_call. rewrite A. assert (E : existsb (N.eqb (counter (snd u))) seen = true) by (apply existsb_exists; exists (counter (snd u)); split; [exact B|apply N.eqb_refl]).
    rewrite E. cbn. apply IH. intros x X. destruct (H x (or_intror X)) as [A' B']. split; [exact A'|now right].
  Qed.
  Lemma calling_some us : forall seen u, In u us -> (forall n, In n seen -> (n < counter (snd u))%N) -> calling seen us <> [].
  Proof.
    induction us as [|x us IH]; intros seen u I H; [destruct I|]. cbn [ScopeSpec.calling].
    destruct (new_call counter seen x) eqn:E; [discriminate|]. unfold new_call in E. apply orb_false_iff in E as [_ E]. apply negb_false_iff in E.
    apply existsb_exists in E as (n & N1 & N2). apply N.eqb_eq in N2. subst n. pose proof (H _ N1) as LT. destruct I as [->|I]; [lia|].
    apply (IH _ u I). intros n [<-|N]; auto.
  Qed.

  Lemma nth_firstn {A} (l : list A) i j x : (i < j)%nat -> nth_error l i = Some x -> nth_error (firstn j l) i = Some x.
  Proof. revert i j. induction l as [|a l IH]; intros i j L N; [destruct i; discriminate|]. destruct j; [lia|]. destruct i; cbn in *; auto. apply IH; auto. lia. Qed.

  Lemma nth_skipn {A} n k : forall (l : list A), nth_error (skipn n l) k = nth_error l (n + k).
  Proof. induction n as [|n IH]; intros [|a l]; cbn; auto. now destruct k. Qed.
  Lemma nth_of_firstn {A} (l : list A) : forall n k x, nth_error (firstn n l) k = Some x -> nth_error l k = Some x /\ (k < n)%nat.
  Proof.
    induction l as [|a l IH]; intros n k x H; [destruct n, k; discriminate|]. destruct n as [|n]; [destruct k; discriminate|].
    destruct k as [|k]; cbn in *; [split; [exact H|lia]|]. destruct (IH _ _ _ H). split; [auto|lia].
  Qed.

  (** The newest use at position [j] continues the history up to [i]. *)
  Lemma firstn_more {A} (l : list A) i j : (i <= j)%nat -> exists m, firstn j l = firstn i l ++ m /\ m = skipn i (firstn j l).
  Proof. intros L. exists (skipn i (firstn j l)). split; [|reflexivity]. rewrite <- (firstn_skipn i (firstn j l)) at 1. now rewrite firstn_firstn, Nat.min_l. Qed.

  Lemma same_value us vs i j u1 u2 : counting counter us -> List.length vs = List.length (calling [] us) -> (i < j)%nat ->
    nth_error us i = Some u1 -> nth_error us j = Some u2 -> counter (snd u1) = counter (snd u2) ->
    (forall u, In u us -> fst u = false) ->
    nth_error (returns [] [] us vs) i = nth_error (returns [] [] us vs) j.
  Proof.
    intros [P M] L IJ N1 N2 E NX. rewrite (returns_nth _ _ _ _ _ _ L N1), (returns_nth _ _ _ _ _ _ L N2).
    destruct (firstn_more us (S i) (S j) ltac:(lia)) as (m & EQ & EM). rewrite EQ, calling_app.
    replace (calling (rev (map (fun u => counter (snd u)) (firstn (S i) us)) ++ []) m) with (@nil runcount); [now rewrite app_nil_r|].
    symmetry. apply calling_none. intros u I. rewrite EM in I. apply In_nth_error in I as (k & K).
    assert (K' : nth_error us (S i + k) = Some u /\ (S i + k < S j)%nat).
    { rewrite nth_skipn in K. apply nth_of_firstn in K. exact K. }
    destruct K' as [K1 K2]. split; [apply NX; eapply nth_error_In; eauto|].
    rewrite app_nil_r, <- in_rev. apply in_map_iff. exists u1. split; [|eapply nth_error_In; apply nth_firstn; [|exact N1]; lia].
    pose proof (M i (S i + k)%nat u1 u ltac:(lia) N1 K1) as A.
    destruct (Nat.eq_dec (S i + k) j) as [Q|Q]; [rewrite Q, N2 in K1; injection K1 as <-; exact E|].
    pose proof (M (S i + k)%nat j u u2 ltac:(lia) K1 N2) as B. lia.
  Qed.

  Lemma new_value us vs i j u1 u2 v1 v2 : counting counter us -> List.length vs = List.length (calling [] us) -> (i < j)%nat ->
    nth_error us i = Some u1 -> nth_error us j = Some u2 -> counter (snd u1) <> counter (snd u2) -> NoDup vs ->
    nth_error (returns [] [] us vs) i = Some v1 -> nth_error (returns [] [] us vs) j = Some v2 -> v1 <> v2.
  Proof.
    intros [P M] L IJ N1 N2 E ND V1 V2. rewrite (returns_nth _ _ _ _ _ _ L N1) in V1. rewrite (returns_nth _ _ _ _ _ _ L N2) in V2.
    assert (FST : calling [] (firstn (S i) us) <> []).
    { destruct us as [|x us]; [destruct i; discriminate|]. change (firstn (S i) (x :: us)) with (x :: firstn i us). cbn. unfold new_call. cbn. now rewrite orb_true_r. }
    destruct (firstn_more us (S i) (S j) ltac:(lia)) as (m & EQ & EM). rewrite EQ, calling_app, app_length in V2.
    assert (SND : calling (rev (map (fun u => counter (snd u)) (firstn (S i) us)) ++ []) m <> []).
    { apply (calling_some _ _ u2).
      - assert (I : In u2 (firstn (S j) us)) by (eapply nth_error_In, nth_firstn; [|exact N2]; lia).
        rewrite EM. assert (X : nth_error (skipn (S i) (firstn (S j) us)) (j - S i) = Some u2).
        { rewrite nth_skipn. replace (S i + (j - S i))%nat with j by lia. apply nth_firstn; [lia|exact N2]. }
        eapply nth_error_In; eauto.
      - intros n I. rewrite app_nil_r, <- in_rev in I. apply in_map_iff in I as (u & <- & I).
        apply In_nth_error in I as (k & K). apply nth_of_firstn in K as [K1 LT].
        assert (LE : (counter (snd u) <= counter (snd u1))%N).
        { destruct (Nat.eq_dec k i) as [->|Q]; [rewrite N1 in K1; injection K1 as <-; lia|]. apply (M k i); auto. lia. }
        pose proof (M i j u1 u2 IJ N1 N2). lia. }
    destruct (List.length (calling [] (firstn (S i) us))) as [|a] eqn:LA; [destruct (calling [] (firstn (S i) us)); [congruence|discriminate]|].
    destruct (calling (rev (map (fun u => counter (snd u)) (firstn (S i) us)) ++ []) m) as [|y ys]; [congruence|]. cbn [List.length Nat.add] in V2.
    intros ->. assert (a = (a + S (List.length ys)))%nat; [|lia].
    apply (proj1 (NoDup_nth_error vs) ND); [apply nth_error_Some; congruence|congruence].
  Qed.
End Uses.

Section P.
  Context {G V : Type}.
  Variable gvalues : G -> runcount -> G * list V.
  Variable own : nat -> bool.
  Variable gscope : nat -> scope.
  Variable gen0 : nat -> G.
  Variable c : client.
  Notation cst := (cst V).
  Notation event := (event V).
  Notation world := (world (G := G) (V := V)).
  Notation log := (list (vlog G V)).
  Notation vrun := (vrun gvalues own gscope gen0 c).
  Notation vcase := (vcase gvalues own c).

  Lemma groups_inputs inps st pc w evs l : vrun inps = Some (st, pc, w, evs, l) ->
    forall i rc us, In (i, rc, us) (groups l) -> exists d, nth_error (c_data c) i = Some d /\ map (fun u => (u_ptr u, u_explicit u)) us = d_inputs d.
  Proof.
    intros H.
    refine (proj1 (vrun_ind gvalues own gscope gen0 c (fun st pc w evs l => forall i rc us, In (i, rc, us) (groups l) -> exists d, nth_error (c_data c) i = Some d /\ map (fun u => (u_ptr u, u_explicit u)) us = d_inputs d)
      _ _ inps st pc w evs l H)).
    - intros i rc us [].
    - clear. intros st pc w evs l st' pc' w' evs' l' _ IH X i rc us I. rewrite groups_app in I. apply in_app_iff in I as [I|I]; [eauto|].
      inv X; [destruct I|].
      match goal with H1 : save_all _ _ _ _ = _ |- _ => destruct (save_all_ok _ _ _ _ _ _ H1) as (G0 & _) end.
      match type of I with context [groups (LUses ?a ?b ?u :: ?x)] => change (groups (LUses a b u :: x)) with ((a, b, u) :: groups x) in I end.
      rewrite G0 in I. destruct I as [[= <- <- <-]|[]].
      match goal with H1 : use_inputs _ _ _ _ _ _ = _ |- _ => destruct (use_inputs_ok _ _ _ _ _ _ _ _ H1) as [UI _] end. eauto.
  Qed.
  Lemma uses_implicit inps st pc w evs l p : vrun inps = Some (st, pc, w, evs, l) -> (forall i, ~ inputs_at c i p true) ->
    forall u, In u (uses_in p (groups l)) -> fst u = false.
  Proof.
    intros H N u I. unfold uses_in in I. apply in_flat_map in I as ([[i rc] us] & I1 & I2). apply in_map_iff in I2 as (x & <- & X). cbn [fst snd] in *.
    apply filter_In in X as [X1 X2]. apply Nat.eqb_eq in X2. destruct (groups_inputs _ _ _ _ _ _ H _ _ _ I1) as (d & D & E).
    destruct (u_explicit x) eqn:EX; [|reflexivity]. exfalso. apply (N i). exists d. split; [exact D|]. rewrite <- E, <- X2, <- EX.
    apply (in_map (fun u => (u_ptr u, u_explicit u)) us x X1).
  Qed.

  (** The position of a use among the uses of its generator. *)
  Lemma nth_split3 {A} (l : list A) n x : nth_error l n = Some x -> l = firstn n l ++ x :: skipn (S n) l /\ List.length (firstn n l) = n.
  Proof.
    intros H. split.
    - revert n H. induction l as [|a l IH]; intros n H; [destruct n; discriminate|]. destruct n as [|n]; cbn in *; [congruence|]. f_equal. now apply IH.
    - apply firstn_length_le. assert (n < length l)%nat by (apply nth_error_Some; congruence). lia.
  Qed.
  Definition pos (p : nat) (gs : list (nat * runcount * list (suse V))) (n : nat) (us : list (suse V)) (j : nat) : nat :=
    (List.length (uses_in p (firstn n gs)) + List.length (of_ptr p (firstn j us)))%nat.
  Lemma pos_ok p gs n i rc us j u : nth_error gs n = Some (i, rc, us) -> nth_error us j = Some u -> u_ptr u = p ->
    nth_error (uses_in p gs) (pos p gs n us j) = Some (u_explicit u, rc) /\ nth_error (values_in p gs) (pos p gs n us j) = Some (u_vals u).
  Proof.
    intros N J P. destruct (nth_split3 _ _ _ N) as [E1 _]. destruct (nth_split3 _ _ _ J) as [E2 _].
    assert (Q : of_ptr p us = of_ptr p (firstn j us) ++ u :: of_ptr p (skipn (S j) us)).
    { rewrite E2 at 1. unfold of_ptr. rewrite filter_app. cbn [filter]. now rewrite P, Nat.eqb_refl. }
    assert (LV : forall gs, List.length (values_in (V := V) p gs) = List.length (uses_in p gs)).
    { induction gs0 as [|g gs0 IH]; [reflexivity|]. unfold values_in, uses_in in *. cbn [flat_map]. rewrite !app_length, !map_length. now rewrite IH. }
    unfold pos. split.
    - rewrite E1 at 1. rewrite uses_in_app. rewrite nth_error_app2 by lia. replace (_ - _)%nat with (List.length (of_ptr p (firstn j us))) by lia.
      change (uses_in p ((i, rc, us) :: skipn (S n) gs)) with (map (fun u => (u_explicit u, rc)) (of_ptr p us) ++ uses_in p (skipn (S n) gs)).
      rewrite Q, map_app. cbn [map]. rewrite <- app_assoc, nth_error_app2 by (rewrite map_length; lia). now rewrite map_length, Nat.sub_diag.
    - rewrite E1 at 1. rewrite values_in_app. rewrite nth_error_app2 by (rewrite LV; lia). rewrite LV. replace (_ - _)%nat with (List.length (of_ptr p (firstn j us))) by lia.
      change (values_in p ((i, rc, us) :: skipn (S n) gs)) with (map u_vals (of_ptr p us) ++ values_in p (skipn (S n) gs)).
      rewrite Q, map_app. cbn [map]. rewrite <- app_assoc, nth_error_app2 by (rewrite map_length; lia). now rewrite map_length, Nat.sub_diag.
  Qed.
  Lemma pos_lt p gs n n' i rc us j u us' j' : nth_error gs n = Some (i, rc, us) -> nth_error us j = Some u -> u_ptr u = p -> (n < n')%nat ->
    (pos p gs n us j < pos p gs n' us' j')%nat.
  Proof.
    intros N J P L. unfold pos. destruct (nth_split3 _ _ _ J) as [E2 _].
    assert (Q : of_ptr p us = of_ptr p (firstn j us) ++ u :: of_ptr p (skipn (S j) us)).
    { rewrite E2 at 1. unfold of_ptr. rewrite filter_app. cbn [filter]. now rewrite P, Nat.eqb_refl. }
    assert (X : exists r, firstn n' gs = firstn n gs ++ (i, rc, us) :: r).
    { destruct (nth_split3 _ _ _ N) as [E1 E3]. assert (Q2 : firstn n' gs = firstn n' (firstn n gs ++ (i, rc, us) :: skipn (S n) gs)) by now rewrite <- E1.
      rewrite Q2, firstn_app, E3. rewrite firstn_all2 by lia. destruct (n' - n)%nat eqn:D; [lia|]. rewrite firstn_cons. eauto. }
    destruct X as (r & ->). rewrite uses_in_app, app_length.
    change (uses_in p ((i, rc, us) :: r)) with (map (fun u => (u_explicit u, rc)) (of_ptr p us) ++ uses_in p r).
    rewrite app_length, map_length, Q, app_length. cbn [List.length]. lia.
  Qed.
  Lemma pos_lt_in p gs n us j j' u : nth_error us j = Some u -> u_ptr u = p -> (j < j')%nat -> (pos p gs n us j < pos p gs n us j')%nat.
  Proof.
    intros J P L. unfold pos. assert (X : exists r, firstn j' us = firstn j us ++ u :: r).
    { destruct (nth_split3 _ _ _ J) as [E1 E3]. assert (Q2 : firstn j' us = firstn j' (firstn j us ++ u :: skipn (S j) us)) by now rewrite <- E1.
      rewrite Q2, firstn_app, E3. rewrite firstn_all2 by lia. destruct (j' - j)%nat eqn:D; [lia|]. rewrite firstn_cons. eauto. }
    destruct X as (r & ->). unfold of_ptr. rewrite filter_app, app_length. cbn [filter]. rewrite P, Nat.eqb_refl. cbn [List.length]. lia.
  Qed.

  Section Trx.
    Variable lens : list nat.
    Hypothesis TRX : has_trx c lens.
    Hypothesis START : trx_start_with_query c lens.
    Hypothesis NE : c_stmts c <> [].

    Lemma generated inps st pc w evs l p : vrun inps = Some (st, pc, w, evs, l) -> own p = true -> single_client (gscope p) -> (forall i, ~ saves_at c i p) ->
      let us := uses_in p (groups l) in
      let '(g', vs) := gen_run gvalues (gen0 p) (calling (scope_counter (gscope p)) [] us) in
      sg_g _ _ (w p) = g' /\ values_in p (groups l) = returns (scope_counter (gscope p)) [] [] us vs.
    Proof.
      intros H O SC NS us. pose proof (single_client_ok gvalues (gscope p) (gen0 p) us SC (uses_counting _ _ _ _ _ lens TRX START _ _ _ _ _ _ _ p SC H)) as X.
      unfold us in *. rewrite (uses_history _ _ _ _ _ _ _ _ _ _ _ H p O NS) in X. exact X.
    Qed.

    Lemma gen_run_length : forall cs g, List.length (snd (gen_run gvalues g cs)) = List.length cs.
    Proof.
      induction cs as [|x cs IH]; intros g; [reflexivity|]. cbn. destruct (gvalues g x) as [g1 v]. specialize (IH g1).
      destruct (gen_run gvalues g1 cs). cbn in *. congruence.
    Qed.

    (** How the counters of two executions differ. *)
    Definition delta (sc : scope) (e1 : event) (mid : list event) (e2 : event) : N :=
      match sc with
      | STrx => cntN (starts_trx lens) (mid ++ [e2])
      | SIter => cntN (fun e => Nat.eqb (ex_stmt e) 0) (mid ++ [e2])
      | SClient => cntN failed_exec (e1 :: mid)
      | _ => cntN is_exec (e1 :: mid)
      end.
    Lemma delta_ok inps st pc evs pre e1 mid e2 post sc : single_client sc -> client_run c inps = Some (st, pc, evs) -> execs evs = pre ++ e1 :: mid ++ e2 :: post ->
      scope_counter sc (ex_rc e2) = (scope_counter sc (ex_rc e1) + delta sc e1 mid e2)%N.
    Proof.
      intros SC R E. destruct (trx_run c lens TRX START NE _ _ _ _ R) as (_ & C & _).
      destruct (C _ _ _ E) as (A1 & A2 & A3 & A4 & _).
      assert (E' : execs evs = (pre ++ e1 :: mid) ++ e2 :: post) by (rewrite <- app_assoc; exact E).
      destruct (C _ _ _ E') as (B1 & B2 & B3 & B4 & _).
      assert (SP : (pre ++ e1 :: mid) ++ [e2] = (pre ++ [e1]) ++ (mid ++ [e2])) by (rewrite <- !app_assoc; reflexivity).
      destruct SC as [->|[->|[->| ->]]]; cbn [scope_counter delta].
      - rewrite B1, A1, cntN_app. lia.
      - rewrite B2, A2, SP, cntN_app. lia.
      - rewrite B3, A3, SP, cntN_app. lia.
      - rewrite B4, A4, cntN_app. lia.
    Qed.
    Lemma cntN_zero {A} (f : A -> bool) l : cntN f l = 0%N <-> Forall (fun x => f x = false) l.
    Proof.
      unfold cntN. induction l as [|a l IH]; cbn; [split; [constructor|reflexivity]|]. destruct (f a) eqn:E.
      - cbn. split; [lia|]. intros X. inv X. congruence.
      - rewrite IH. split; [now constructor|]. intros X. now inv X.
    Qed.
    Lemma delta_same sc e1 mid e2 : single_client sc -> is_exec e1 = true -> (same_scope sc lens e1 mid e2 <-> delta sc e1 mid e2 = 0%N).
    Proof.
      intros SC I. destruct SC as [->|[->|[->| ->]]]; cbn [same_scope delta].
      - rewrite cntN_zero. split; [easy|]. intros X. inv X. congruence.
      - symmetry. apply cntN_zero.
      - rewrite cntN_zero. split; intros X; (eapply Forall_impl; [|exact X]); cbn; intros a A; [now apply Nat.eqb_neq|now apply Nat.eqb_neq in A].
      - symmetry. apply cntN_zero.
    Qed.

    (** The uses [u1] and [u2] of [p] for two executions. *)
    Lemma two_uses inps st pc w evs l p pre e1 mid e2 post i1 rc1 us1 i2 rc2 us2 j1 j2 u1 u2 :
      vrun inps = Some (st, pc, w, evs, l) -> execs evs = pre ++ e1 :: mid ++ e2 :: post ->
      nth_error (groups l) (length pre) = Some (i1, rc1, us1) ->
      nth_error (groups l) (length pre + S (length mid)) = Some (i2, rc2, us2) ->
      nth_error us1 j1 = Some u1 -> nth_error us2 j2 = Some u2 -> u_ptr u1 = p -> u_ptr u2 = p ->
      own p = true -> single_client (gscope p) -> (forall i, ~ saves_at c i p) ->
      (same_scope (gscope p) lens e1 mid e2 -> (forall i, ~ inputs_at c i p true) -> u_vals u1 = u_vals u2) /\
      (~ same_scope (gscope p) lens e1 mid e2 -> never_repeats gvalues (gen0 p) -> u_vals u1 <> u_vals u2).
    Proof.
      intros H E G1 G2 J1 J2 P1 P2 O SC NS.
      destruct (groups_match _ _ _ _ _ _ _ _ _ _ _ H) as (rest & F & EG & _).
      destruct (vrun_ind gvalues own gscope gen0 c (fun _ _ _ _ _ => True) I ltac:(auto) _ _ _ _ _ _ H) as [_ (inps' & R)].
      assert (MF : forall n e g, nth_error (execs evs) n = Some e -> nth_error (groups l) n = Some g -> ex_rc e = snd (fst g)).
      { intros n e g A B. rewrite EG in B. assert (LT : (n < length (execs evs))%nat) by (apply nth_error_Some; congruence).
        assert (LL : length (execs evs) = length (firstn (length (execs evs)) (groups l))) by (clear -F; induction F; cbn; congruence).
        rewrite nth_error_app1 in B by lia. revert n A B LT. clear -F. induction F as [|x y xs ys X _ IH]; intros n A B LT; [cbn in LT; lia|].
        destruct n as [|n]; cbn in *; [|apply (IH n); auto; lia]. injection A as ->. injection B as ->. destruct g as [[i rc] us]. destruct X as (_ & X & _). exact X. }
      assert (R1 : ex_rc e1 = rc1).
      { refine (MF _ _ _ _ G1). rewrite E, nth_error_app2, Nat.sub_diag by lia. reflexivity. }
      assert (R2 : ex_rc e2 = rc2).
      { refine (MF _ _ _ _ G2). rewrite E, nth_error_app2 by lia. replace (_ - _)%nat with (S (length mid)) by lia. cbn. rewrite nth_error_app2, Nat.sub_diag by lia. reflexivity. }
      assert (X1 : is_exec e1 = true).
      { assert (I : In e1 (execs evs)) by (rewrite E; apply in_app_iff; right; now left). now apply filter_In in I. }
      pose proof (delta_ok _ _ _ _ _ _ _ _ _ _ SC R E) as D. rewrite R1, R2 in D. rewrite (delta_same _ e1 mid e2 SC X1).
      destruct (pos_ok _ _ _ _ _ _ _ _ G1 J1 P1) as [U1 V1]. destruct (pos_ok _ _ _ _ _ _ _ _ G2 J2 P2) as [U2 V2].
      pose proof (pos_lt p (groups l) _ (length pre + S (length mid)) _ _ _ _ _ us2 j2 G1 J1 P1 ltac:(lia)) as LT.
      pose proof (uses_counting _ _ _ _ _ lens TRX START _ _ _ _ _ _ _ p SC H) as CN.
      pose proof (generated _ _ _ _ _ _ p H O SC NS) as GN. cbv zeta in GN.
      destruct (gen_run gvalues (gen0 p) (calling (scope_counter (gscope p)) [] (uses_in p (groups l)))) as [g' vs] eqn:EGR.
      destruct GN as [_ GN]. pose proof (gen_run_length (calling (scope_counter (gscope p)) [] (uses_in p (groups l))) (gen0 p)) as LV. rewrite EGR in LV. cbn in LV.
      split.
      - intros DZ NX. rewrite GN in V1, V2.
        assert (CE : scope_counter (gscope p) (snd (u_explicit u1, rc1)) = scope_counter (gscope p) (snd (u_explicit u2, rc2))) by (cbn [snd]; lia).
        rewrite (same_value _ _ _ _ _ _ _ CN LV LT U1 U2 CE (uses_implicit _ _ _ _ _ _ _ H NX)) in V1. congruence.
      - intros DZ NR. rewrite GN in V1, V2.
        assert (CE : scope_counter (gscope p) (snd (u_explicit u1, rc1)) <> scope_counter (gscope p) (snd (u_explicit u2, rc2))) by (cbn [snd]; lia).
        refine (new_value _ _ _ _ _ _ _ _ _ CN LV LT U1 U2 CE _ V1 V2).
        specialize (NR (calling (scope_counter (gscope p)) [] (uses_in p (groups l)))). now rewrite EGR in NR.
    Qed.

    Lemma one_statement inps st pc w evs l p n i rc us j1 j2 u1 u2 :
      vrun inps = Some (st, pc, w, evs, l) -> nth_error (groups l) n = Some (i, rc, us) ->
      nth_error us j1 = Some u1 -> nth_error us j2 = Some u2 -> u_ptr u1 = p -> u_ptr u2 = p ->
      own p = true -> single_client (gscope p) -> (forall i, ~ saves_at c i p) -> (forall i, ~ inputs_at c i p true) -> u_vals u1 = u_vals u2.
    Proof.
      intros H GN. revert j1 j2 u1 u2.
      assert (X : forall j1 j2 u1 u2, (j1 < j2)%nat -> nth_error us j1 = Some u1 -> nth_error us j2 = Some u2 -> u_ptr u1 = p -> u_ptr u2 = p ->
        own p = true -> single_client (gscope p) -> (forall i, ~ saves_at c i p) -> (forall i, ~ inputs_at c i p true) -> u_vals u1 = u_vals u2).
      { intros j1 j2 u1 u2 JL J1 J2 P1 P2 O SC NS NX.
        destruct (pos_ok _ _ _ _ _ _ _ _ GN J1 P1) as [U1 V1]. destruct (pos_ok _ _ _ _ _ _ _ _ GN J2 P2) as [U2 V2].
        pose proof (pos_lt_in p (groups l) n us j1 j2 u1 J1 P1 JL) as LT.
        pose proof (uses_counting _ _ _ _ _ lens TRX START _ _ _ _ _ _ _ p SC H) as CN.
        pose proof (generated _ _ _ _ _ _ p H O SC NS) as GR. cbv zeta in GR.
        destruct (gen_run gvalues (gen0 p) (calling (scope_counter (gscope p)) [] (uses_in p (groups l)))) as [g' vs] eqn:EGR.
        destruct GR as [_ GR]. pose proof (gen_run_length (calling (scope_counter (gscope p)) [] (uses_in p (groups l))) (gen0 p)) as LV. rewrite EGR in LV. cbn in LV.
        rewrite GR in V1, V2. rewrite (same_value _ _ _ _ _ _ _ CN LV LT U1 U2 eq_refl (uses_implicit _ _ _ _ _ _ _ H NX)) in V1. congruence. }
      intros j1 j2 u1 u2 J1 J2 P1 P2 O SC NS NX. destruct (Nat.lt_trichotomy j1 j2) as [L|[->|L]].
      - eapply X; eauto.
      - congruence.
      - symmetry. eapply X; [exact L|..]; eauto.
    Qed.
  End Trx.
End P.
