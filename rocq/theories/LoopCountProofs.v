(** Proofs: how often the queries of a client are executed. *)
From Verif Require Import Prelude ListAux ScopeModel StmtModel WorkloadModel WorkloadSpec ClientModel ClientSpec.
From Verif Require Import IterModel IterSpec IterProofs LoopModel LoopSpec LoopProofs.
#[local] Open Scope list_scope.

Lemma cntN_app {A} (f : A -> bool) a b : cntN f (a ++ b) = (cntN f a + cntN f b)%N.
Proof. unfold cntN. rewrite filter_app, app_length. lia. Qed.
Lemma cntN_nil {A} (f : A -> bool) : cntN f [] = 0%N.
Proof. reflexivity. Qed.

Lemma repeat_concat_snoc {A} (l : list A) n : concat (repeat l (S n)) = concat (repeat l n) ++ l.
Proof. induction n as [|n IH]; cbn in *; [now rewrite app_nil_r|]. rewrite IH at 1. now rewrite app_assoc. Qed.

Lemma filter_all_false {A} (f : A -> bool) l : (forall x, In x l -> f x = false) -> filter f l = [].
Proof. induction l as [|a l IH]; intros H; cbn; [reflexivity|]. rewrite (H a) by now left. apply IH. intros. apply H. now right. Qed.
Lemma once {A} (f : A -> nat) q (l : list A) : NoDup (map f l) -> (cntN (fun a => Nat.eqb (f a) q) l <= 1)%N.
Proof.
  unfold cntN. induction l as [|a l IH]; intros N; cbn in *; [lia|]. inversion N as [|? ? N1 N2]; subst.
  destruct (Nat.eqb_spec (f a) q) as [E|E]; [|auto]. cbn.
  replace (filter (fun a => Nat.eqb (f a) q) l) with (@nil A); [cbn; lia|].
  symmetry. apply filter_all_false. intros b Hb. apply Nat.eqb_neq. intros E'. apply N1. rewrite E, <- E'. now apply in_map.
Qed.
Lemma at_least {A} (f : A -> nat) q (l : list A) : In q (map f l) -> (1 <= cntN (fun a => Nat.eqb (f a) q) l)%N.
Proof.
  unfold cntN. intros H. apply in_map_iff in H as (a & <- & Ha).
  assert (X : In a (filter (fun x => Nat.eqb (f x) (f a)) l)) by (apply filter_In; split; [auto|apply Nat.eqb_refl]).
  destruct (filter _ l); [destruct X|cbn; lia].
Qed.

Section Count.
  Context {V : Type}.
  Notation event := (event V).
  Variable c : client.

  Lemma queries_nodup : NoDup (queries c).
  Proof. apply NoDup_filter, seq_NoDup. Qed.

  Lemma prefix_nodup (l : list event) rest : queries c = map ex_stmt l ++ rest -> NoDup (map ex_stmt l).
  Proof.
    intros E. pose proof queries_nodup as N. rewrite E in N. clear E. induction (map ex_stmt l) as [|a l' IH]; [constructor|].
    cbn in N. inversion N as [|? ? N1 N2]; subst. constructor; [|auto]. intros H. apply N1, in_or_app. now left.
  Qed.

  Notation count q l := (cntN (fun e => Nat.eqb (ex_stmt e) q) l).

  Lemma count_le q (its : list (list event)) : Forall (fun it => exists n rest, iteration c n it rest) its ->
    (count q (concat its) <= N.of_nat (length its))%N.
  Proof.
    induction 1 as [|it its (n & rest & I) F IH]; [apply N.le_refl|]. cbn [concat length]. rewrite cntN_app.
    destruct I as (E & _). pose proof (once ex_stmt q it (prefix_nodup _ _ E)). lia.
  Qed.

  Lemma closed_first q qs n (it : list event) : queries c = q :: qs -> closed c n it -> count q it = 1%N.
  Proof.
    intros Q (rest & (E & _) & F). pose proof (once ex_stmt q it (prefix_nodup _ _ E)).
    assert (In q (map ex_stmt it)).
    { destruct it as [|e it]; [|rewrite Q in E; injection E as -> _; now left]. cbn in E. subst rest.
      destruct F as (it' & e & X & _); [congruence|]. destruct it'; discriminate. }
    pose proof (at_least ex_stmt q it H0). lia.
  Qed.
  Lemma closed_clean n (it : list event) : closed c n it -> Forall (fun e => failed_exec e = false) it -> map ex_stmt it = queries c.
  Proof.
    intros (rest & (E & _) & F) C. destruct rest as [|r rest]; [now rewrite app_nil_r in E|].
    destruct F as (it' & e & -> & X); [discriminate|]. rewrite Forall_forall in C. rewrite C in X; [discriminate|].
    apply in_or_app. right. now left.
  Qed.

  Lemma numbered_init P (its : list (list event)) it : numbered P (its ++ [it]) -> numbered P its /\ P (N.of_nat (S (length its))) it.
  Proof.
    intros H. split.
    - intros k x Hk. apply H. rewrite nth_error_app1; auto. apply nth_error_Some. congruence.
    - apply H. rewrite nth_error_app2, Nat.sub_diag by lia. reflexivity.
  Qed.

  Lemma count_first q qs (its : list (list event)) : queries c = q :: qs -> numbered (closed c) its ->
    count q (concat its) = N.of_nat (length its).
  Proof.
    intros Q. induction its as [|it its IH] using rev_ind; intros H; [reflexivity|].
    apply numbered_init in H as [H1 H2]. rewrite concat_app, cntN_app, app_length, IH by auto. cbn [concat]. rewrite app_nil_r.
    rewrite (closed_first _ _ _ _ Q H2). cbn [length]. lia.
  Qed.
  Lemma clean_all (its : list (list event)) : numbered (closed c) its -> Forall (fun e => failed_exec e = false) (concat its) ->
    map ex_stmt (concat its) = concat (repeat (queries c) (length its)).
  Proof.
    induction its as [|it its IH] using rev_ind; intros H F; [reflexivity|].
    apply numbered_init in H as [H1 H2]. rewrite concat_app in F |- *. apply Forall_app in F as [F1 F2]. cbn [concat] in F2 |- *. rewrite app_nil_r in F2 |- *.
    rewrite map_app, IH, app_length by auto. cbn [length]. rewrite Nat.add_1_r, repeat_concat_snoc. f_equal.
    eapply closed_clean; eauto.
  Qed.
  Lemma count_map q (l : list event) : count q l = N.of_nat (length (filter (fun i => Nat.eqb i q) (map ex_stmt l))).
  Proof. unfold cntN. f_equal. induction l as [|e l IH]; cbn; [reflexivity|]. destruct (Nat.eqb _ _); cbn; now rewrite IH. Qed.

  Lemma count_all q (its : list (list event)) : In q (queries c) -> numbered (closed c) its -> Forall (fun e => failed_exec e = false) (concat its) ->
    count q (concat its) = N.of_nat (length its).
  Proof.
    intros Q. induction its as [|it its IH] using rev_ind; intros H F; [reflexivity|].
    apply numbered_init in H as [H1 H2]. rewrite concat_app in F |- *. apply Forall_app in F as [F1 F2]. cbn [concat] in F2 |- *. rewrite app_nil_r in F2 |- *.
    rewrite cntN_app, IH, app_length by auto. pose proof (closed_clean _ _ H2 F2) as M.
    assert (NoDup (map ex_stmt it)) by (rewrite M; apply queries_nodup).
    pose proof (once ex_stmt q it H). rewrite <- M in Q. pose proof (at_least ex_stmt q it Q). cbn [length]. lia.
  Qed.

  Lemma executions_shape (st : cst V) pc evs : executions c st pc evs ->
    exists its, N.of_nat (length its) = rc_iter (s_rc st) /\ execs evs = concat its /\
      Forall (fun it => exists n rest, iteration c n it rest) its.
  Proof.
    intros (its & L & E & X). exists its. split; [auto|]. split; [auto|].
    assert (NC : forall its0 : list (list event), numbered (closed c) its0 -> Forall (fun it => exists n rest, iteration c n it rest) its0).
    { intros its0 H. apply Forall_forall. intros it Hit. apply In_nth_error in Hit as [k Hk]. destruct (H _ _ Hk) as (rest & I & _). eauto. }
    destruct pc as [| |i|].
    - subst its. constructor.
    - auto.
    - destruct X as (Li & its0 & it & -> & H & O). apply Forall_app. split; [auto|]. constructor; [|constructor].
      eexists _, _. eapply open_iteration; [|exact O]. lia.
    - destruct X as ([->|(its0 & it & rest & -> & H & I)] & _); [constructor|]. apply Forall_app. split; [auto|]. constructor; [eauto|constructor].
  Qed.

  Lemma count_run inps (st : cst V) pc evs : client_run c inps = Some (st, pc, evs) ->
    (forall q, (times q evs <= rc_iter (s_rc st))%N) /\
    (no_data_limit c -> reached_limit evs ->
      (queries c <> [] -> starts c evs = rc_iter (s_rc st)) /\
      (no_failure evs -> map ex_stmt (execs evs) = concat (repeat (queries c) (N.to_nat (rc_iter (s_rc st)))) /\
        forall q, In q (queries c) -> times q evs = rc_iter (s_rc st))).
  Proof.
    intros R. destruct (executions_run c _ _ _ _ R) as (X & ND). split.
    - intros q. destruct (executions_shape _ _ _ X) as (its & L & E & F). unfold times. rewrite E, <- L. now apply count_le.
    - intros DL (r & Hr). assert (pc = PcDone) as ->.
      { destruct pc; auto; exfalso; (assert (Z : Forall (fun e => is_done e = false) evs) by (apply ND; discriminate));
          rewrite Forall_forall in Z; specialize (Z _ Hr); discriminate. }
      destruct X as (its & L & E & _ & C). specialize (C DL (ex_intro _ r Hr)). split.
      + intros NE. unfold starts. destruct (queries c) as [|q qs] eqn:Q; [congruence|]. unfold times. rewrite E, <- L. eapply count_first; eauto.
      + intros F. unfold no_failure in F. unfold times. rewrite E in F |- *. rewrite <- L, Nat2N.id. split; [now apply clean_all|]. intros q Hq. now apply count_all.
  Qed.
End Count.

(** Executions are of existing statements, so their texts are those of the queries. *)
Lemma executed_repeat {V} (c : client) (evs : list (event V)) n :
  map ex_stmt (execs evs) = concat (repeat (queries c) n) ->
  executed c evs = concat (repeat (map st_query (filter (fun s => negb (is_idle s)) (c_stmts c))) n).
Proof.
  intros H. unfold executed.
  rewrite <- (map_map ex_stmt (fun i => match nth_error (c_stmts c) i with Some s => st_query s | None => EmptyString end)), H.
  assert (Q : map (fun i => match nth_error (c_stmts c) i with Some s => st_query s | None => EmptyString end) (queries c) =
              map st_query (filter (fun s => negb (is_idle s)) (c_stmts c))).
  { unfold queries. generalize (c_stmts c) as l. induction l as [|s l IH]; [reflexivity|].
    cbn [length seq filter nth_error]. rewrite <- seq_shift.
    assert (FM : forall (f : nat -> bool) l', filter f (map S l') = map S (filter (fun i => f (S i)) l')).
    { intros f l'. induction l' as [|a l' IH']; cbn; [reflexivity|]. destruct (f (S a)); cbn; now rewrite IH'. }
    rewrite FM. cbn [nth_error]. destruct (negb (is_idle s)); cbn [map nth_error]; rewrite map_map; cbn [nth_error]; now rewrite IH. }
  clear H. induction n as [|n IH]; [reflexivity|]. cbn [repeat concat]. now rewrite map_app, IH, Q.
Qed.

(** The clients of a run. *)
Lemma loop_client {V} cs sched (st : lst V) tr i k : loop_run (loop_init cs) sched = Some (st, tr) -> nth_error (l_cls st) i = Some k ->
  nth_error cs i = Some (l_c k) /\ one k (events_of i tr).
Proof.
  intros R K. destruct (sim_run _ _ _ _ R) as (C & O & _). split; [|auto].
  rewrite <- C, nth_error_map, K. reflexivity.
Qed.
Lemma loop_has {V} cs sched (st : lst V) tr i c : loop_run (loop_init cs) sched = Some (st, tr) -> nth_error cs i = Some c ->
  exists k, nth_error (l_cls st) i = Some k /\ l_c k = c.
Proof.
  intros R K. destruct (sim_run _ _ _ _ R) as (C & _). rewrite <- C, nth_error_map in K.
  destruct (nth_error (l_cls st) i) as [k|]; [|discriminate]. injection K as <-. eauto.
Qed.

(** Sums. *)
Lemma total_iterations {V} sel (f : client -> list (event V) -> N) tr : forall ls ks j0, length ks = length ls ->
  (forall j e g c k, nth_error ls j = Some (e, g, c) -> nth_error ks j = Some k -> sel e g = true -> f c (events_of (j0 + j) tr) = ic_n k) ->
  total sel f ls j0 tr = iterations sel ls ks.
Proof.
  induction ls as [|[[e g] c] ls IH]; intros [|k ks] j0 L H; try discriminate; [reflexivity|]. cbn [total iterations].
  rewrite (IH ks (S j0)).
  - f_equal. destruct (sel e g) eqn:D; [|reflexivity]. specialize (H 0%nat e g c k eq_refl eq_refl D). now rewrite Nat.add_0_r in H.
  - now injection L.
  - intros j e' g' c' k' A B D. specialize (H (S j) e' g' c' k' A B D). now rewrite Nat.add_succ_r in H.
Qed.
Lemma total_le {V} sel (f : client -> list (event V) -> N) tr : forall ls ks j0, length ks = length ls ->
  (forall j e g c k, nth_error ls j = Some (e, g, c) -> nth_error ks j = Some k -> sel e g = true -> (f c (events_of (j0 + j) tr) <= ic_n k)%N) ->
  (total sel f ls j0 tr <= iterations sel ls ks)%N.
Proof.
  induction ls as [|[[e g] c] ls IH]; intros [|k ks] j0 L H; try discriminate. cbn [total iterations].
  assert (X : (total sel f ls (S j0) tr <= iterations sel ls ks)%N).
  { apply IH; [now injection L|]. intros j e' g' c' k' A B D. specialize (H (S j) e' g' c' k' A B D). now rewrite Nat.add_succ_r in H. }
  destruct (sel e g) eqn:D; [|lia]. specialize (H 0%nat e g c k eq_refl eq_refl D). rewrite Nat.add_0_r in H. lia.
Qed.

(** Numbers of clients. *)
Lemma filter_concat {A} (f : A -> bool) ll : filter f (concat ll) = concat (map (filter f) ll).
Proof. induction ll as [|l ll IH]; [reflexivity|]. cbn. now rewrite filter_app, IH. Qed.
Lemma concat_mapi_nil {A B} (F : nat -> A -> list B) : forall l n, (forall i x, (n <= i)%nat -> F i x = []) -> concat (mapi_from F n l) = [].
Proof. induction l as [|a l IH]; intros n H; [reflexivity|]. cbn. rewrite (H n) by lia. apply IH. intros. apply H. lia. Qed.
Lemma pick {A B} (F : nat -> A -> list B) e : forall l n, (forall i x, i <> (n + e)%nat -> F i x = []) ->
  concat (mapi_from F n l) = match nth_error l e with Some x => F (n + e)%nat x | None => [] end.
Proof.
  induction e as [|e IH]; intros [|a l] n H; try reflexivity.
  - cbn [mapi_from concat nth_error]. rewrite concat_mapi_nil, app_nil_r, Nat.add_0_r; [reflexivity|]. intros. apply H. lia.
  - cbn [mapi_from concat nth_error]. rewrite (H n) by lia. cbn [app]. rewrite (IH l (S n)); [|intros; apply H; lia].
    now rewrite Nat.add_succ_r.
Qed.
Lemma map_mapi {A B C} (h : B -> C) (F : nat -> A -> B) : forall l n, map h (mapi_from F n l) = mapi_from (fun i x => h (F i x)) n l.
Proof. induction l as [|a l IH]; intros n; cbn; [reflexivity|]. now rewrite IH. Qed.

Lemma filter_all_true {A} (f : A -> bool) l : (forall x, In x l -> f x = true) -> filter f l = l.
Proof. induction l as [|a l IH]; intros H; cbn; [reflexivity|]. rewrite (H a) by now left. f_equal. apply IH. intros. apply H. now right. Qed.

Lemma clients_of_exec_group out e css : nth_error out e = Some css ->
  clients_in (exec_group e) (labelled out) = N.of_nat (length (concat css)).
Proof.
  intros H. unfold clients_in, labelled. f_equal. rewrite filter_concat, map_mapi.
  rewrite (pick _ e out 0).
  - rewrite H. rewrite filter_all_true.
    + clear H. cbn [Nat.add]. generalize 0%nat as n. induction css as [|cs css IH]; intros n; [reflexivity|]. cbn [mapi_from concat].
      rewrite !app_length, map_length, IH. reflexivity.
    + intros [[e' g'] x] I. apply in_concat_mapi in I as (g & cs & _ & I). apply in_map_iff in I as (c & I & _). injection I as <- _ _.
      cbn. unfold exec_group. cbn. apply Nat.eqb_refl.
  - intros i x N. apply filter_all_false. intros [[e' g'] y] I. apply in_concat_mapi in I as (g & cs & _ & I).
    apply in_map_iff in I as (c & I & _). injection I as <- _ _. cbn. unfold exec_group. apply Nat.eqb_neq. cbn in N. congruence.
Qed.

Lemma clients_of_group out e g css cls : nth_error out e = Some css -> nth_error css g = Some cls ->
  clients_in (one_group e g) (labelled out) = N.of_nat (length cls).
Proof.
  intros H G. unfold clients_in, labelled. f_equal. rewrite filter_concat, map_mapi.
  rewrite (pick _ e out 0).
  - rewrite H, filter_concat, map_mapi. rewrite (pick _ g css 0).
    + rewrite G, filter_all_true; [apply map_length|]. intros [[e' g'] x] I. apply in_map_iff in I as (c & I & _). injection I as <- <- _.
      cbn. unfold one_group. now rewrite !Nat.eqb_refl.
    + intros i x N. apply filter_all_false. intros [[e' g'] y] I. apply in_map_iff in I as (c & I & _). injection I as <- <- _.
      cbn. unfold one_group. rewrite Nat.eqb_refl. apply Nat.eqb_neq. cbn in N. congruence.
  - intros i x N. apply filter_all_false. intros [[e' g'] y] I. apply in_concat_mapi in I as (g0 & cs & _ & I).
    apply in_map_iff in I as (c & I & _). injection I as <- _ _. cbn. unfold one_group.
    replace (Nat.eqb e i) with false; [reflexivity|]. symmetry. apply Nat.eqb_neq. cbn in N. congruence.
Qed.
