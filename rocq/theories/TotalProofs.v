(** Proofs about the statistics of a whole stage. *)
From Verif Require Import Prelude ListAux StmtModel WorkloadModel WorkloadSpec ClientModel ClientSpec ClientProps ClientTrxProofs StatsModel StatsSpec StatsProofs
  StatsReportProofs StatsProps CollectorModel CollectorSpec CollectorProofs TotalModel TotalSpec.
#[local] Open Scope list_scope.

(* ------------------------------------------------------------------------------------ *)
(** * The statistics are those of the events *)
Section Objects.
  Variable flog : Z -> bool * N.

  Definition okst (st : stats) (evs : list sev) : Prop := srep flog st evs /\ minexact st evs.
  Definition sim (s : swst sev) (o : obst) : Prop :=
    okst (o_a o) (sw_a s) /\ okst (o_b o) (sw_b s) /\ o_onA o = sw_onA s /\ o_sp o = sw_sp s /\
    o_client o = sw_client s /\ o_coll o = sw_coll s /\ Forall2 okst (o_swapped o) (sw_reported s).

  Lemma put_ok st evs e : okst st evs -> exists st', put flog st e = Some st' /\ okst st' (evs ++ [e]).
  Proof.
    intros [R M]. destruct (apply_all_spec flog [e] st evs R) as (st' & E & R' & M'). exists st'.
    split; [|split; [exact R'|exact (M' M)]]. destruct e as [q d|k]; cbn in *; [|exact E]. destruct (record flog st q d); congruence.
  Qed.
  Lemma reset_ok st evs : okst st evs -> okst (reset st) [].
  Proof. intros [R _]. apply reset_srep. eapply srep_valid, R. Qed.

  Lemma sim_step s o x s' : sim s o -> sw_step s x = Some s' -> exists o', ob_step flog o x = Some o' /\ sim s' o'.
  Proof.
    intros (A & B & E1 & E2 & E3 & E4 & F). destruct o as [a b onA sp cl co sw]. cbn [o_a o_b o_onA o_sp o_client o_coll o_swapped] in *. subst onA sp cl co.
    destruct x as [e| | | |]; cbn [sw_step ob_step o_a o_b o_onA o_sp o_client o_coll o_swapped].
    - destruct (sw_client s); [discriminate|]. intros [= <-]. eexists. split; [reflexivity|]. repeat split; auto; apply A || apply B.
    - destruct (sw_client s) as [[p e]|]; [|discriminate]. intros [= <-]. destruct p.
      + destruct (put_ok _ _ e A) as (t & -> & T). eexists. split; [reflexivity|]. repeat split; auto; apply T || apply B.
      + destruct (put_ok _ _ e B) as (t & -> & T). eexists. split; [reflexivity|]. repeat split; auto; apply T || apply A.
    - destruct (sw_coll s); try discriminate. intros [= <-]. eexists. split; [reflexivity|].
      pose proof (reset_ok _ _ A) as A'. pose proof (reset_ok _ _ B) as B'.
      destruct (sw_onA s); repeat split; auto; apply A || apply B || apply A' || apply B'.
    - destruct (sw_coll s); try discriminate. intros [= <-]. eexists. split; [reflexivity|]. repeat split; auto; apply A || apply B.
    - destruct (sw_coll s) as [| |p]; try discriminate. intros [= <-]. eexists. split; [reflexivity|].
      split; [exact A|]. split; [exact B|]. repeat (split; [reflexivity|]). apply Forall2_app; [exact F|]. constructor; [|constructor].
      unfold sw_buf. destruct p; assumption.
  Qed.
  Lemma sim_run a : forall s o s', sim s o -> sw_run s a = Some s' -> exists o', ob_run flog o a = Some o' /\ sim s' o'.
  Proof.
    induction a as [|x a IH]; intros s o s' S H; cbn [sw_run ob_run] in *; [injection H as <-; eauto|].
    destruct (sw_step s x) as [s1|] eqn:E; [|discriminate]. destruct (sim_step _ _ _ _ S E) as (o1 & -> & S1). eauto.
  Qed.
  Lemma sim_init : sim sw_init ob_init.
  Proof. pose proof (new_srep flog) as N. split; [exact N|]. split; [exact N|]. repeat (split; [reflexivity|]). constructor. Qed.

  (** What the collections take, as lists of events. *)
  Lemma swaps_ok acts reps : Forall2 (fun a r => exists s, sw_run sw_init a = Some s /\ sw_reported s = r) acts reps ->
    exists sw, swaps flog acts = Some sw /\ Forall2 (Forall2 okst) sw reps.
  Proof.
    induction 1 as [|a r acts reps (s & R & E) _ IH]; cbn [swaps]; [exists []; split; [reflexivity|constructor]|].
    destruct IH as (sw & -> & F). destruct (sim_run a _ _ _ sim_init R) as (o & -> & S). exists (o_swapped o :: sw).
    split; [reflexivity|]. constructor; [|exact F]. rewrite <- E. apply S.
  Qed.
End Objects.

(* ------------------------------------------------------------------------------------ *)
(** * Every recording is in one collection *)

Definition pending (s : swst sev) : list sev := match sw_client s with Some (_, e) => [e] | None => [] end.
Lemma loads_step s x s' : sw_step s x = Some s' -> sw_recorded s' ++ pending s' = sw_recorded s ++ pending s ++ loads [x].
Proof.
  unfold pending. destruct x as [e| | | |]; cbn [sw_step loads flat_map app].
  - destruct (sw_client s) eqn:C; [discriminate|]. intros [= <-]. reflexivity.
  - destruct (sw_client s) as [[p e]|] eqn:C; [|discriminate]. intros [= <-]. cbn. now rewrite !app_nil_r.
  - destruct (sw_coll s); try discriminate. intros [= <-]. cbn. now rewrite !app_nil_r.
  - destruct (sw_coll s); try discriminate. intros [= <-]. cbn. now rewrite !app_nil_r.
  - destruct (sw_coll s); try discriminate. intros [= <-]. cbn. now rewrite !app_nil_r.
Qed.
Lemma loads_run a : forall s s', sw_run s a = Some s' -> sw_recorded s' ++ pending s' = sw_recorded s ++ pending s ++ loads a.
Proof.
  induction a as [|x a IH]; intros s s' H; cbn [sw_run] in H; [injection H as <-; cbn; now rewrite app_nil_r|].
  destruct (sw_step s x) as [s1|] eqn:E; [|discriminate]. rewrite (IH _ _ H). pose proof (loads_step _ _ _ E) as L.
  replace (loads (x :: a)) with (loads [x] ++ loads a) by (unfold loads; cbn; now rewrite app_nil_r). rewrite !app_assoc in *. now rewrite L.
Qed.
Lemma sw_run_app {E} (a b : list (swact E)) : forall s, sw_run s (a ++ b) = match sw_run s a with Some s' => sw_run s' b | None => None end.
Proof. induction a as [|x a IH]; intros s; cbn [sw_run app]; [reflexivity|]. destruct (sw_step s x); [apply IH|reflexivity]. Qed.

Lemma all_reported a s : collected_last a -> quiet sw_init a -> sw_run sw_init a = Some s -> concat (sw_reported s) = loads a.
Proof.
  intros (b & s1 & -> & R1 & C1 & C2) Q R. pose proof (C39_exactly_once_partial sev _ _ Q R) as X.
  pose proof (loads_run _ _ _ R) as L. rewrite sw_run_app, R1 in R. cbn [sw_run sw_step] in R. rewrite C2 in R. cbn in R. injection R as <-.
  match type of X with _ ++ ?u = _ => assert (U : u = []) by (unfold unread, sw_buf; cbn; now destruct (sw_onA s1)) end.
  rewrite U, app_nil_r in X. rewrite X. unfold pending in L. cbn [sw_client] in L. rewrite C1, app_nil_r in L. exact L.
Qed.

(** Only the last collection: no race. *)
Definition once (es : list sev) : list (swact sev) := flat_map (fun e => [ALoad e; AWrite]) es ++ [AReset; AStore; ARead].
Definition before (es : list sev) (s : swst sev) : Prop :=
  sw_client s = None /\ sw_coll s = CIdle /\ sw_reported s = [] /\ quiet s [AReset; AStore; ARead].
Lemma once_ok es : collected_last (once es) /\ quiet sw_init (once es) /\ exists s, sw_run sw_init (once es) = Some s /\ List.length (sw_reported s) = 1%nat.
Proof.
  assert (X : forall es s, sw_client s = None -> sw_coll s = CIdle ->
    quiet s (once es) /\ exists s', sw_run s (flat_map (fun e => [ALoad e; AWrite]) es) = Some s' /\ sw_client s' = None /\ sw_coll s' = CIdle /\ sw_reported s' = sw_reported s).
  { clear. induction es as [|e es IH]; intros s C D.
    - split; [|exists s; cbn; auto]. unfold once. cbn. unfold no_overlap. cbn. rewrite D. cbn. rewrite C. auto.
    - unfold once. cbn [flat_map app quiet sw_run sw_step]. rewrite C. cbn [sw_client]. edestruct IH as [Q (s' & R & C' & D' & E')]; [| |split].
      3: { split; [exact I|]. split; [exact I|]. exact Q. }
      + reflexivity.
      + exact D.
      + exists s'. split; [exact R|]. split; [exact C'|]. split; [exact D'|]. exact E'. }
  destruct (X es sw_init eq_refl eq_refl) as [Q (s' & R & C & D & E)]. split; [|split; [exact Q|]].
  - exists (flat_map (fun e => [ALoad e; AWrite]) es), s'. auto.
  - unfold once. rewrite sw_run_app, R. cbn [sw_run sw_step]. rewrite D. cbn. eexists. split; [reflexivity|]. cbn. rewrite E. reflexivity.
Qed.
Lemma once_loads es : loads (once es) = es.
Proof. unfold once, loads. rewrite flat_map_app. cbn. rewrite app_nil_r. induction es as [|e es IH]; cbn; [reflexivity|]. now rewrite IH. Qed.

(* ------------------------------------------------------------------------------------ *)
(** * Sums *)
Lemma sumN_app a b : sumN (a ++ b) = (sumN a + sumN b)%N.
Proof. unfold sumN. induction a as [|x a IH]; cbn; [reflexivity|]. rewrite IH. lia. Qed.
Lemma sumN_map_add {A} (f g : A -> N) l : sumN (map (fun x => f x + g x)%N l) = (sumN (map f l) + sumN (map g l))%N.
Proof. unfold sumN. induction l as [|x l IH]; cbn; [reflexivity|]. rewrite IH. lia. Qed.
Lemma sumN_zero {A} (f : A -> N) l : (forall x, In x l -> f x = 0%N) -> sumN (map f l) = 0%N.
Proof. unfold sumN. induction l as [|x l IH]; intros H; cbn; [reflexivity|]. rewrite (H x), IH; auto; [|now left]. intros y Y. apply H. now right. Qed.
Lemma sumN_ext {A} (f g : A -> N) l : (forall x, In x l -> f x = g x) -> sumN (map f l) = sumN (map g l).
Proof. intros H. f_equal. now apply map_ext_in. Qed.
Lemma cntN_app {A} (f : A -> bool) a b : cntN f (a ++ b) = (cntN f a + cntN f b)%N.
Proof. unfold cntN. rewrite filter_app, app_length. lia. Qed.

(** A measure of events. *)
Definition additive (f : list sev -> N) : Prop := f [] = 0%N /\ forall a b, f (a ++ b) = (f a + f b)%N.
Lemma additive_concat f l : additive f -> f (concat l) = sumN (map f l).
Proof. unfold sumN. intros [F0 F1]. induction l as [|x l IH]; cbn; [exact F0|]. now rewrite F1, IH. Qed.

Definition tk {A} (z : list (string * list A)) (k : nat) : list (string * A) :=
  flat_map (fun x => match nth_error (snd x) k with Some s => [(fst x, s)] | None => [] end) z.
Lemma tk_names {A} (z : list (string * list A)) n k : Forall (fun x => List.length (snd x) = n) z -> (k < n)%nat -> map fst (tk z k) = map fst z.
Proof.
  intros F K. induction F as [|x z E _ IH]; [reflexivity|]. cbn [tk flat_map map]. rewrite map_app. fold (tk z k). rewrite IH.
  destruct (nth_error (snd x) k) eqn:Y; [reflexivity|]. apply nth_error_None in Y. lia.
Qed.
Lemma sum_nth {A} (f : A -> N) (l : list A) : sumN (map (fun k => match nth_error l k with Some x => f x | None => 0%N end) (seq 0 (List.length l))) = sumN (map f l).
Proof.
  induction l as [|x l IH]; [reflexivity|]. cbn [List.length seq map]. rewrite <- seq_shift, map_map. cbn [nth_error]. cbn [sumN fold_right]. f_equal. exact IH.
Qed.
Lemma exchange f (sel : string -> bool) n : additive f -> forall z : list (string * list (list sev)), Forall (fun x => List.length (snd x) = n) z ->
  sumN (map (fun k => f (concat (map snd (filter (fun p => sel (fst p)) (tk z k))))) (seq 0 n)) =
  sumN (map (fun x => if sel (fst x) then f (concat (snd x)) else 0%N) z).
Proof.
  intros AD z F. induction F as [|x z E _ IH].
  - cbn [map tk flat_map filter concat]. apply sumN_zero. intros; apply AD.
  - cbn [map sumN fold_right]. fold (sumN (map (fun x0 => if sel (fst x0) then f (concat (snd x0)) else 0%N) z)). rewrite <- IH.
    rewrite (additive_concat f (snd x) AD), <- (sum_nth f (snd x)), E.
    replace (if sel (fst x) then sumN (map (fun k => match nth_error (snd x) k with Some x0 => f x0 | None => 0%N end) (seq 0 n)) else 0%N)
      with (sumN (map (fun k => if sel (fst x) then match nth_error (snd x) k with Some x0 => f x0 | None => 0%N end else 0%N) (seq 0 n))).
    2: { destruct (sel (fst x)); [reflexivity|]. now apply sumN_zero. }
    rewrite <- sumN_map_add. apply sumN_ext. intros k K. cbn [tk flat_map]. fold (tk z k). destruct AD as [A0 A1].
    rewrite filter_app, map_app, concat_app, A1. f_equal.
    destruct (nth_error (snd x) k) as [y|]; cbn [filter map concat fst]; [|rewrite A0; now destruct (sel (fst x))].
    destruct (sel (fst x)); cbn [map concat snd]; [now rewrite app_nil_r|exact A0].
Qed.

(* ------------------------------------------------------------------------------------ *)
(** * Counting in a client's recordings *)

Definition nq (q : qclass) (l : list sev) : N := N.of_nat (List.length (times q l)).
Definition nk (code : N) (l : list sev) : N := N.of_nat (count_occ N.eq_dec (codes l) code).
Lemma nq_add q : additive (nq q).
Proof. split; [reflexivity|]. intros a b. unfold nq. rewrite times_app, app_length. lia. Qed.
Lemma nk_add k : additive (nk k).
Proof. split; [reflexivity|]. intros a b. unfold nk. rewrite codes_app, count_occ_app. lia. Qed.

Section Counting.
  Context {V : Type}.
  Definition plays (n : nat) (p : played V) (acts : list (list (swact sev))) : Prop :=
    has_trx (pl_c p) (pl_lens p) /\ trx_start_with_query (pl_c p) (pl_lens p) /\ c_stmts (pl_c p) <> [] /\
    (exists inps st pc, client_run (pl_c p) inps = Some (st, pc, pl_evs p)) /\
    ((stats_off (pl_c p) /\ acts = []) \/
     (stats_on (pl_c p) /\ List.length acts = List.length (c_stats (pl_c p)) /\
      forall k a, nth_error acts k = Some a ->
        Forall2 same_act (filter (at_slot k) (pl_evs p)) (loads a) /\
        exists s, sw_run sw_init a = Some s /\ List.length (sw_reported s) = n)).
  Lemma ran_plays n p acts : of_group p -> ran n p acts -> plays n p acts.
  Proof.
    intros [T O] (S & NE & R & L & H). split; [exact T|]. split; [exact S|]. split; [exact NE|]. split; [exact R|]. destruct O as [O|O]; [right|left].
    - split; [exact O|]. split; [|exact H]. rewrite L. clear -O. induction O as [|o l H _ IH]; [reflexivity|]. cbn [filter]. destruct o; [cbn; now f_equal|congruence].
    - split; [exact O|]. apply length_zero_iff_nil. rewrite L. clear -O. induction O as [|o l -> _ IH]; [reflexivity|exact IH].
  Qed.
  Definition recq (q : qclass) (e : event V) : bool := match e with EvRecord _ q' => covers q q' | _ => false end.
  Definition errk (code : N) (e : event V) : bool := match e with EvError _ k => N.eqb k code | _ => false end.

  Lemma cntN_cons {A} (f : A -> bool) x l : cntN f (x :: l) = ((if f x then 1 else 0) + cntN f l)%N.
  Proof. unfold cntN. cbn [filter]. destruct (f x); cbn [List.length]; lia. Qed.

  Lemma same_nq q (l : list (event V)) xs : Forall2 same_act l xs -> nq q xs = cntN (recq q) l.
  Proof.
    induction 1 as [|e x l xs H _ IH]; [reflexivity|]. rewrite cntN_cons, <- IH. change (x :: xs) with ([x] ++ xs).
    rewrite (proj2 (nq_add q)). f_equal. destruct e, x; cbn in H; try contradiction; [|reflexivity].
    destruct H as [-> _]. unfold nq, times, recq. cbn. now destruct (covers q _).
  Qed.
  Lemma same_nk code (l : list (event V)) xs : Forall2 same_act l xs -> nk code xs = cntN (errk code) l.
  Proof.
    induction 1 as [|e x l xs H _ IH]; [reflexivity|]. rewrite cntN_cons, <- IH. change (x :: xs) with ([x] ++ xs).
    rewrite (proj2 (nk_add code)). f_equal. destruct e, x; cbn in H; try contradiction; [reflexivity|].
    subst. unfold nk, codes, errk. cbn. destruct (N.eq_dec _ code) as [->|]; [now rewrite N.eqb_refl|].
    match goal with |- context [N.eqb ?a code] => destruct (N.eqb_spec a code) end; [contradiction|reflexivity].
  Qed.
  Lemma same_ok (l : list (event V)) xs : Forall2 same_act l xs -> times_ok xs.
  Proof.
    unfold times_ok. induction 1 as [|e x l xs H _ IH]; [constructor|]. destruct e, x; cbn in H |- *; try contradiction; [|exact IH].
    constructor; [apply H|exact IH].
  Qed.

  (** Over all the statistics. *)
  Definition slot_in (P : nat -> bool) (n : nat) (e : event V) : bool :=
    match e with EvRecord j _ | EvError j _ => ((j <? n)%nat && P j)%bool | _ => false end.
  Lemma sum_one (P : nat -> bool) j : forall n m, sumN (map (fun k => if (P k && Nat.eqb j k)%bool then 1%N else 0%N) (seq m n)) =
    if ((m <=? j)%nat && (j <? m + n)%nat && P j)%bool then 1%N else 0%N.
  Proof.
    induction n as [|n IH]; intros m.
    - cbn. destruct (Nat.leb_spec m j), (Nat.ltb_spec j (m + 0)); try reflexivity. lia.
    - cbn [seq map]. change (sumN (?x :: ?l)) with (x + sumN l)%N. rewrite IH. destruct (Nat.eqb_spec j m) as [->|N].
      + rewrite andb_true_r. destruct (Nat.leb_spec (S m) m); [lia|]. destruct (Nat.leb_spec m m); [|lia].
        destruct (Nat.ltb_spec m (m + S n)); [|lia]. cbn. destruct (P m); reflexivity.
      + rewrite andb_false_r. destruct (Nat.leb_spec (S m) j), (Nat.leb_spec m j); try lia; cbn [andb]; try reflexivity.
        destruct (Nat.ltb_spec j (S m + n)), (Nat.ltb_spec j (m + S n)); try lia; reflexivity.
  Qed.
  Lemma sum_slots (P : nat -> bool) n (g : event V -> bool) l :
    sumN (map (fun k => if P k then cntN g (filter (at_slot k) l) else 0%N) (seq 0 n)) = cntN (fun e => (slot_in P n e && g e)%bool) l.
  Proof.
    induction l as [|e l IH].
    - apply sumN_zero. intros k _. now destruct (P k).
    - rewrite cntN_cons, <- IH.
      rewrite (sumN_ext _ (fun k => (if (P k && at_slot k e && g e)%bool then 1 else 0) + (if P k then cntN g (filter (at_slot k) l) else 0))%N).
      2: { intros k _. cbn [filter]. destruct (P k); [|reflexivity]. destruct (at_slot k e); [|reflexivity]. rewrite cntN_cons. cbn [andb]. reflexivity. }
      rewrite sumN_map_add. f_equal. destruct (g e).
      + rewrite andb_true_r. destruct e; cbn [at_slot slot_in]; try (apply sumN_zero; intros; now rewrite andb_true_r, andb_false_r).
        * rewrite (sumN_ext _ (fun k => if (P k && Nat.eqb slot k)%bool then 1%N else 0%N)) by (intros; now rewrite andb_true_r). now rewrite sum_one.
        * rewrite (sumN_ext _ (fun k => if (P k && Nat.eqb slot k)%bool then 1%N else 0%N)) by (intros; now rewrite andb_true_r). now rewrite sum_one.
      + rewrite andb_false_r. apply sumN_zero. intros. now rewrite andb_false_r.
  Qed.

  Definition pnames (c : client) : list string := flat_map (fun o => match o with Some x => [x] | None => [] end) (c_stats c).
  Lemma on_names c : stats_on c -> c_stats c = map Some (pnames c).
  Proof.
    unfold stats_on, pnames. induction 1 as [|o l H _ IH]; [reflexivity|]. cbn [flat_map]. destruct o; [|congruence]. cbn. now rewrite <- IH.
  Qed.
  Lemma on_len c : stats_on c -> List.length (pnames c) = List.length (c_stats c).
  Proof. intros ON. pose proof (f_equal (@List.length _) (on_names c ON)) as E. rewrite map_length in E. now symmetry. Qed.
  Lemma off_names c : stats_off c -> pnames c = [].
  Proof. unfold stats_off, pnames. induction 1 as [|o l -> _ IH]; [reflexivity|]. exact IH. Qed.

  Definition selk (c : client) (sel : string -> bool) (k : nat) : bool := match nth_error (pnames c) k with Some x => sel x | None => false end.

  Lemma covers_class s q q' : class_is s q' -> covers q q' = in_class q s.
  Proof.
    destruct q, q'; cbn; intros H; try reflexivity; repeat match goal with H : _ /\ _ |- _ => destruct H | H : _ = _ |- _ => rewrite H end; reflexivity.
  Qed.

  Lemma parts_count (p : played V) sel exs parts : has_trx (pl_c p) (pl_lens p) -> stats_on (pl_c p) ->
    Forall2 (in_stats (pl_c p) (pl_lens p)) exs parts ->
    (forall q, cntN (fun e => (slot_in (selk (pl_c p) sel) (List.length (c_stats (pl_c p))) e && recq q e)%bool) (concat parts) = cntN (executes p sel q) exs) /\
    (forall code, cntN (fun e => (slot_in (selk (pl_c p) sel) (List.length (c_stats (pl_c p))) e && errk code e)%bool) (concat parts) =
       cntN (fun e => (executes p sel TOTAL e && fails_with code e)%bool) exs).
  Proof.
    intros T ON F. assert (LT : forall i s, nth_error (c_stmts (pl_c p)) i = Some s ->
      exists x, nth_error (pnames (pl_c p)) (block_index (pl_lens p) i) = Some x /\ nth_error (c_stats (pl_c p)) (block_index (pl_lens p) i) = Some (Some x) /\
        (block_index (pl_lens p) i <? List.length (c_stats (pl_c p)))%nat = true).
    { intros i s H. destruct T as (_ & T2 & _ & T4). assert (I : (i < List.length (c_stmts (pl_c p)))%nat) by (apply nth_error_Some; congruence).
      rewrite T2 in I. pose proof (block_lt _ _ I) as B. rewrite <- T4 in B. pose proof B as B'. rewrite <- (on_len _ ON) in B.
      destruct (nth_error (pnames (pl_c p)) (block_index (pl_lens p) i)) as [x|] eqn:E; [|apply nth_error_None in E; lia].
      exists x. split; [reflexivity|]. split; [|now apply Nat.ltb_lt]. rewrite (on_names _ ON), nth_error_map, E. reflexivity. }
    induction F as [|e part exs parts H _ [IH1 IH2]]; [split; reflexivity|]. cbn [concat].
    destruct e as [| | | | | | |i pr cn rc vals res ctx| | | | |]; cbn in H; try contradiction. destruct H as (s & q' & N & C & ->). destruct (LT _ _ N) as (x & X1 & X2 & X3).
    assert (EX : forall q, executes p sel q (EvExec i pr cn rc vals res ctx) = (sel x && in_class q s)%bool).
    { intros q. unfold executes. cbn [ex_stmt]. now rewrite N, X2. }
    split.
    - intros q. rewrite cntN_app, IH1, (cntN_cons (executes p sel q)). f_equal. rewrite EX, <- (covers_class s q q' C).
      rewrite !cntN_cons. cbn [slot_in recq]. rewrite X3. unfold selk. rewrite X1. cbn [andb].
      replace (cntN _ (match res with Some _ => _ | None => _ end)) with 0%N; [destruct (sel x && covers q q')%bool; reflexivity|].
      destruct res as [er|]; [destruct ctx|]; try reflexivity. rewrite cntN_cons. cbn [slot_in recq]. now rewrite andb_false_r.
    - intros code. rewrite cntN_app, IH2, (cntN_cons (fun e => (executes p sel TOTAL e && fails_with code e)%bool)). f_equal. rewrite EX. cbn [in_class]. rewrite andb_true_r.
      rewrite !cntN_cons. cbn [slot_in errk]. rewrite andb_false_r. cbn [fails_with].
      destruct res as [er|]; [destruct ctx|]; cbn [andb]; rewrite ?andb_false_r; try reflexivity.
      rewrite cntN_cons. cbn [slot_in errk]. rewrite X3. unfold selk. rewrite X1. cbn [andb]. destruct (sel x && (er_code er =? code)%N)%bool; reflexivity.
  Qed.

  Lemma slot_stat k (l : list (event V)) : filter (at_slot k) (filter is_stat l) = filter (at_slot k) l.
  Proof. induction l as [|e l IH]; [reflexivity|]. destruct e; cbn [filter is_stat at_slot]; rewrite ?IH; try reflexivity. Qed.

  Lemma combine_app' {A B} (a a' : list A) (b b' : list B) : List.length a = List.length b ->
    List.combine (a ++ a') (b ++ b') = List.combine a b ++ List.combine a' b'.
  Proof. revert b. induction a as [|x a IH]; intros [|y b] H; try discriminate; [reflexivity|]. cbn. f_equal. apply IH. now injection H. Qed.
  Lemma nth_combine {A B} (a : list A) : forall (b : list B) k, nth_error (List.combine a b) k =
    match nth_error a k, nth_error b k with Some x, Some y => Some (x, y) | _, _ => None end.
  Proof.
    induction a as [|x a IH]; intros [|y b] [|k]; cbn; try reflexivity; [now destruct (nth_error a k)|apply IH].
  Qed.

  Definition slot_sum (f : list sev -> N) (sel : string -> bool) (names : list string) (acts : list (list (swact sev))) : N :=
    sumN (map (fun x => if sel (fst x) then f (loads (snd x)) else 0%N) (List.combine names acts)).
  Lemma slot_sum_slots f sel (p : played V) g acts : List.length acts = List.length (c_stats (pl_c p)) -> stats_on (pl_c p) ->
    (forall l xs, Forall2 (same_act (V := V)) l xs -> f xs = cntN g l) ->
    (forall k a, nth_error acts k = Some a -> Forall2 same_act (filter (at_slot k) (pl_evs p)) (loads a)) ->
    slot_sum f sel (pnames (pl_c p)) acts = cntN (fun e => (slot_in (selk (pl_c p) sel) (List.length (c_stats (pl_c p))) e && g e)%bool) (filter is_stat (pl_evs p)).
  Proof.
    intros L ON FG H. rewrite <- sum_slots. unfold slot_sum. rewrite <- sum_nth.
    assert (LN : List.length (pnames (pl_c p)) = List.length (c_stats (pl_c p))) by now apply on_len.
    rewrite combine_length, LN, L, Nat.min_id. apply sumN_ext. intros k K. apply in_seq in K. rewrite nth_combine. unfold selk.
    destruct (nth_error (pnames (pl_c p)) k) as [x|] eqn:E; [|apply nth_error_None in E; lia].
    destruct (nth_error acts k) as [a|] eqn:E2; [|apply nth_error_None in E2; lia]. cbn [fst snd]. destruct (sel x); [|reflexivity].
    rewrite slot_stat. apply FG. now apply H.
  Qed.

  Lemma plays_counts n (p : played V) acts sel : plays n p acts ->
    (forall q, slot_sum (nq q) sel (pnames (pl_c p)) acts = cntN (executes p sel q) (execs (pl_evs p))) /\
    (forall code, slot_sum (nk code) sel (pnames (pl_c p)) acts = cntN (fun e => (executes p sel TOTAL e && fails_with code e)%bool) (execs (pl_evs p))) /\
    List.length acts = List.length (pnames (pl_c p)).
  Proof.
    intros (T & S & NE & (inps & st & pc & R) & [[OFF ->]|(ON & L & H)]).
    - rewrite (off_names _ OFF). assert (Z : forall q e, executes p sel q e = false).
      { intros q e. unfold executes. destruct (nth_error (c_stmts (pl_c p)) (ex_stmt e)); [|reflexivity].
        destruct (nth_error (c_stats (pl_c p)) _) as [o|] eqn:E; [|reflexivity]. apply nth_error_In in E.
        rewrite (proj1 (Forall_forall _ _) OFF _ E). reflexivity. }
      assert (Z' : forall f l, (forall e, f e = false) -> cntN (A := event V) f l = 0%N).
      { clear. intros f l H. unfold cntN. induction l as [|e l IH]; cbn; [reflexivity|]. now rewrite H. }
      split; [|split; [|reflexivity]]; intros; cbn; symmetry; apply Z'; intros; rewrite Z; reflexivity.
    - destruct (C29_recorded_partial _ _ _ _ _ _ T S NE ON R) as (parts & F & E). destruct (parts_count p sel _ _ T ON F) as [P1 P2].
      assert (H' : forall k a, nth_error acts k = Some a -> Forall2 same_act (filter (at_slot k) (pl_evs p)) (loads a)) by (intros k a K; apply (H k a K)).
      split; [|split].
      + intros q. rewrite (slot_sum_slots _ sel p (recq q) acts L ON (same_nq q) H'), E. apply P1.
      + intros code. rewrite (slot_sum_slots _ sel p (errk code) acts L ON (same_nk code) H'), E. apply P2.
      + rewrite L. symmetry. now apply on_len.
  Qed.
  Lemma all_counts n (ps : list (played V)) actss sel : Forall2 (plays n) ps actss ->
    (forall q, slot_sum (nq q) sel (flat_map (fun p => pnames (pl_c p)) ps) (concat actss) = executed ps sel q) /\
    (forall code, slot_sum (nk code) sel (flat_map (fun p => pnames (pl_c p)) ps) (concat actss) = failed ps sel code) /\
    List.length (concat actss) = List.length (flat_map (fun p => pnames (pl_c p)) ps).
  Proof.
    induction 1 as [|p acts ps actss H _ (I1 & I2 & I3)]; [repeat split|]. destruct (plays_counts n p acts sel H) as (P1 & P2 & P3). cbn [flat_map concat].
    split; [|split].
    - intros q. unfold slot_sum. rewrite combine_app', map_app, sumN_app by auto. unfold executed. cbn [map]. change (sumN (?x :: ?l)) with (x + sumN l)%N.
      f_equal; [apply P1|apply I1].
    - intros q. unfold slot_sum. rewrite combine_app', map_app, sumN_app by auto. unfold failed. cbn [map]. change (sumN (?x :: ?l)) with (x + sumN l)%N.
      f_equal; [apply P2|apply I2].
    - now rewrite !app_length, P3, I3.
  Qed.
End Counting.

(* ------------------------------------------------------------------------------------ *)
(** * What is watched *)

Lemma trx_get_snoc m x v y : trx_get (m ++ [(x, v)]) y = match trx_get m y with Some t => Some t | None => if String.eqb y x then Some v else None end.
Proof. induction m as [|[k t] m IH]; cbn; [reflexivity|]. destruct (String.eqb y k); [reflexivity|exact IH]. Qed.

Definition local_ok (local : list (string * stats)) (ns : list string) : Prop :=
  (forall x t, trx_get local x = Some t -> t = stats_new) /\ (forall x, In x ns -> trx_get local x <> None).
Lemma watch_loop_ok n : forall xs i names local ns, (i + List.length xs <= n)%nat -> local_ok local ns ->
  exists local', watch_loop n i (map Some xs) names local = Some (names ++ xs, local') /\ local_ok local' (ns ++ xs).
Proof.
  induction xs as [|x xs IH]; intros i names local ns L [K1 K2]; cbn [map watch_loop].
  - exists local. rewrite !app_nil_r. split; [reflexivity|]. split; assumption.
  - cbn [List.length] in L. destruct (Nat.ltb_spec i n); [|lia].
    destruct (IH (S i) (names ++ [x]) (match trx_get local x with Some _ => local | None => local ++ [(x, stats_new)] end) (ns ++ [x])) as (l' & E & OK).
    + lia.
    + destruct (trx_get local x) eqn:G; [split; [exact K1|]|split].
      * intros y Y. apply in_app_iff in Y as [Y|[->|[]]]; [now apply K2|congruence].
      * intros y t. rewrite trx_get_snoc. destruct (trx_get local y) eqn:Gy; [intros [= <-]; eauto|]. destruct (String.eqb y x); congruence.
      * intros y Y. rewrite trx_get_snoc. apply in_app_iff in Y as [Y|[->|[]]]; [specialize (K2 y Y); destruct (trx_get local y); congruence|].
        rewrite G, String.eqb_refl. discriminate.
    + exists l'. rewrite <- !app_assoc in *. cbn [app] in *. auto.
Qed.

Definition with_stats (c : client) : bool := existsb (fun s => match s with Some _ => true | None => false end) (c_stats c).
Lemma some_len (xs : list string) : List.length (filter (fun s => match s with Some _ => true | None => false end) (map Some xs)) = List.length xs.
Proof. induction xs; cbn; auto. Qed.
Lemma watch_on w ns c : stats_on c -> c_stats c <> [] -> concat (wt_trx w) = ns -> local_ok (wt_local w) ns ->
  exists w', watch w (c_stats c) = Some w' /\ concat (wt_trx w') = ns ++ pnames c /\ local_ok (wt_local w') (ns ++ pnames c) /\ wt_clients w' = (wt_clients w + 1)%N /\ with_stats c = true.
Proof.
  intros ON NE W L. unfold watch, with_stats. rewrite (on_names c ON) in *. rewrite some_len. destruct (pnames c) as [|x xs] eqn:P; [now destruct NE|].
  rewrite <- P in *. destruct (watch_loop_ok (List.length (pnames c)) (pnames c) 0 [] (wt_local w) ns) as (l' & E & OK); [cbn; lia|exact L|]. rewrite E.
  replace (Nat.eqb (List.length (pnames c)) 0) with false by (now rewrite P). eexists. split; [reflexivity|]. cbn [wt_trx wt_local wt_clients].
  rewrite concat_app, W. cbn. rewrite app_nil_r. rewrite P at 4. auto.
Qed.
Lemma watch_off w c : stats_off c -> watch w (c_stats c) = Some w /\ with_stats c = false.
Proof.
  intros OFF. unfold watch, with_stats. replace (List.length _) with 0%nat; [cbn; split; [reflexivity|]|].
  - induction OFF as [|o l -> _ IH]; [reflexivity|exact IH].
  - induction OFF as [|o l -> _ IH]; [reflexivity|exact IH].
Qed.
Lemma watch_all_ok {V} n (ps : list (played V)) actss : Forall2 (plays n) ps actss -> forall w ns, concat (wt_trx w) = ns -> local_ok (wt_local w) ns ->
  exists w', watch_all w (map (fun p => c_stats (pl_c p)) ps) = Some w' /\
    concat (wt_trx w') = ns ++ flat_map (fun p => pnames (pl_c p)) ps /\ local_ok (wt_local w') (ns ++ flat_map (fun p => pnames (pl_c p)) ps) /\
    wt_clients w' = (wt_clients w + cntN (fun p => with_stats (pl_c p)) ps)%N.
Proof.
  induction 1 as [|p acts ps actss H _ IH]; intros w ns W L; cbn [map watch_all flat_map].
  - exists w. rewrite !app_nil_r. cbn. rewrite N.add_0_r. auto.
  - rewrite cntN_cons. destruct H as (T & S & NE & _ & [[OFF _]|(ON & _ & _)]).
    + destruct (watch_off w _ OFF) as [-> WS]. rewrite WS, (off_names _ OFF). cbn [app]. apply IH; assumption.
    + assert (NE' : c_stats (pl_c p) <> []).
      { destruct T as (_ & T2 & _ & T4). intros E. rewrite E in T4. destruct (pl_lens p); [|discriminate]. cbn in T2. now destruct (c_stmts (pl_c p)). }
      destruct (watch_on w ns _ ON NE' W L) as (w1 & -> & W1 & L1 & C1 & WS). destruct (IH w1 _ W1 L1) as (w2 & -> & W2 & L2 & C2).
      exists w2. rewrite app_assoc. split; [reflexivity|]. split; [exact W2|]. split; [exact L2|]. rewrite C2, C1, WS. lia.
Qed.

(* ------------------------------------------------------------------------------------ *)
(** * The reports *)
Section Reports.
  Variable flog : Z -> bool * N.

  Lemma taken_ok k n : forall names sw reps, Forall2 (Forall2 (okst flog)) sw reps -> Forall (fun r => List.length r = n) reps -> (k < n)%nat ->
    Forall (fun r => times_ok (concat r)) reps -> swapped_ok flog (taken names sw k) (taken names reps k).
  Proof.
    induction names as [|x names IH]; intros sw reps F; [constructor|]. destruct F as [|a r sw reps H F]; intros L K T; [constructor|].
    inv L. inv T. unfold taken. cbn [List.combine flat_map fst snd].
    destruct (nth_error r k) as [evs|] eqn:E; [|apply nth_error_None in E; lia]. destruct (Forall2_nth_r _ _ _ _ _ H E) as (st & E' & R & M). rewrite E'.
    apply Forall2_app; [|now apply IH]. constructor; [|constructor]. cbn [fst snd]. split; [reflexivity|].
    assert (OK : times_ok evs) by (eapply (proj1 (Forall_forall _ _)); [apply times_ok_concat; eassumption|eapply nth_error_In, E]).
    split; [exact OK|]. now apply parts_exact.
  Qed.

  Lemma choose_reps n (acts : list (list (swact sev))) : Forall (fun a => exists s, sw_run sw_init a = Some s /\ List.length (sw_reported s) = n) acts ->
    exists reps, Forall2 (fun a r => exists s, sw_run sw_init a = Some s /\ sw_reported s = r) acts reps /\ Forall (fun r => List.length r = n) reps.
  Proof.
    induction 1 as [|a acts (s & R & L) _ (reps & F & G)]; [exists []; split; constructor|]. exists (sw_reported s :: reps). split; constructor; eauto.
  Qed.

  Lemma Forall2_sum {A B} (R : A -> B -> Prop) (f : A -> N) (g : B -> N) l l' : Forall2 R l l' -> (forall a b, In a l -> R a b -> f a = g b) -> sumN (map f l) = sumN (map g l').
  Proof.
    induction 1 as [|a b l l' H _ IH]; intros E; [reflexivity|]. cbn [map]. change (sumN (?x :: ?l)) with (x + sumN l)%N. rewrite (E a b), IH; auto; [|now left].
    intros; apply E; auto. now right.
  Qed.
  Lemma filter_true {A} (l : list A) : filter (fun _ => true) l = l.
  Proof. induction l; cbn; congruence. Qed.

  Lemma combine_forall {A B} (P : B -> Prop) : forall (l : list A) l', Forall P l' -> Forall (fun x => P (snd x)) (List.combine l l').
  Proof. induction l as [|x l IH]; intros l' F; [constructor|]. destruct F as [|y l' H F]; constructor; [exact H|now apply IH]. Qed.

  Lemma combine_fst {A B} : forall (l : list A) (l' : list B), List.length l = List.length l' -> map fst (List.combine l l') = l.
  Proof. induction l as [|x l IH]; intros [|y l'] E; try discriminate; [reflexivity|]. cbn. f_equal. apply IH. now injection E. Qed.

  (** The sums over the reports are the sums over what the collections took. *)
  Definition rep_sum (f : list sev -> N) (sel : string -> bool) (names : list string) (reps : list (list (list sev))) : N :=
    sumN (map (fun x => if sel (fst x) then f (concat (snd x)) else 0%N) (List.combine names reps)).
  Definition reported_as (a : list (swact sev)) (r : list (list sev)) : Prop := exists s, sw_run sw_init a = Some s /\ sw_reported s = r.

  Lemma taken_sum f sel n names reps : additive f -> Forall (fun r => List.length r = n) reps ->
    sumN (map (fun k => f (concat (map snd (filter (fun p => sel (fst p)) (taken names reps k))))) (seq 0 n)) = rep_sum f sel names reps.
  Proof.
    intros AD L. change (@taken (list sev) names reps) with (tk (List.combine names reps)). apply exchange; [exact AD|].
    now apply (combine_forall (fun r : list (list sev) => List.length r = n)).
  Qed.
  Lemma rep_loads f sel names : forall acts reps, Forall2 (fun a r => concat r = loads a) acts reps -> rep_sum f sel names reps = slot_sum f sel names acts.
  Proof.
    unfold rep_sum, slot_sum. induction names as [|x names IH]; intros acts reps F; [reflexivity|]. destruct F as [|a r acts reps E F]; [reflexivity|].
    cbn [List.combine map]. change (sumN (?x :: ?l)) with (x + sumN l)%N. cbn [fst snd]. rewrite E. f_equal. now apply IH.
  Qed.
  Lemma rep_le f sel names : forall acts reps, Forall2 (fun a r => (f (concat r) <= f (loads a))%N) acts reps -> (rep_sum f sel names reps <= slot_sum f sel names acts)%N.
  Proof.
    unfold rep_sum, slot_sum. induction names as [|x names IH]; intros acts reps F; [reflexivity|]. destruct F as [|a r acts reps E F]; [reflexivity|].
    cbn [List.combine map]. change (sumN (?x :: ?l)) with (x + sumN l)%N. cbn [fst snd]. specialize (IH _ _ F). destruct (sel x); lia.
  Qed.

  Lemma stage_sums {V} n (ps : list (played V)) actss : Forall2 (plays n) ps actss ->
    (forall a r, In a (concat actss) -> reported_as a r -> times_ok (concat r)) ->
    exists w reports reps, watch_all watch_new (map (fun p => c_stats (pl_c p)) ps) = Some w /\ wt_clients w = cntN (fun p => with_stats (pl_c p)) ps /\
      stage_reports flog w (concat actss) n = Some reports /\ List.length reports = n /\ Forall2 reported_as (concat actss) reps /\
      let names := flat_map (fun p => pnames (pl_c p)) ps in
      (forall q, sumN (map (fun r => total_n r q) reports) = rep_sum (nq q) (fun _ => true) names reps) /\
      (forall code, sumN (map (fun r => total_err r code) reports) = rep_sum (nk code) (fun _ => true) names reps) /\
      (forall name, In name names ->
        (forall q, sumN (map (fun r => trx_n name r q) reports) = rep_sum (nq q) (String.eqb name) names reps) /\
        (forall code, sumN (map (fun r => trx_err name r code) reports) = rep_sum (nk code) (String.eqb name) names reps)).
  Proof.
    intros P TO. destruct (watch_all_ok n ps actss P watch_new [] eq_refl) as (w & W & W1 & [W2 W3] & W4).
    { split; [discriminate|]. intros x []. }
    cbn [app] in *. set (names := flat_map (fun p => pnames (pl_c p)) ps) in *.
    assert (AL : Forall (fun a => exists s, sw_run sw_init a = Some s /\ List.length (sw_reported s) = n) (concat actss)).
    { clear -P. induction P as [|p acts ps actss H _ IH]; [constructor|]. cbn [concat]. apply Forall_app. split; [|exact IH].
      destruct H as (_ & _ & _ & _ & [[_ ->]|(_ & _ & H)]); [constructor|]. apply Forall_forall. intros a A. destruct (In_nth_error _ _ A) as (k & E).
      apply (H _ _ E). }
    destruct (choose_reps n (concat actss) AL) as (reps & RP & RL).
    assert (RT : Forall (fun r => times_ok (concat r)) reps).
    { clear -RP TO. induction RP as [|a r l l' H _ IH]; constructor; [eapply TO; [now left|exact H]|]. apply IH. intros b r' B. apply TO. now right. }
    destruct (swaps_ok flog _ _ RP) as (sw & SW & SF).
    assert (LN : List.length names = List.length reps).
    { destruct (all_counts n ps actss (fun _ => true) P) as (_ & _ & LL). rewrite <- (F2_length _ _ _ RP). now symmetry. }
    assert (NM : forall k, (k < n)%nat -> map fst (taken names reps k) = names).
    { intros k K. change (@taken (list sev) names reps) with (tk (List.combine names reps)). rewrite (tk_names _ n); auto.
      - now apply combine_fst.
      - now apply (combine_forall (fun r : list (list sev) => List.length r = n)). }
    destruct (C40_local flog (map (taken names sw) (seq 0 n)) (map (taken names reps) (seq 0 n)) (stats_new, wt_local w)) as (reports & E & F).
    { eapply srep_valid, (proj1 (new_srep flog)). }
    { cbn [snd]. intros x t G. apply W2 in G. subst t. eapply srep_valid, (proj1 (new_srep flog)). }
    { apply Forall_forall. intros parts I. apply in_map_iff in I as (k & <- & I). apply in_seq in I. intros p Ip. cbn [snd]. apply W3. rewrite <- (NM k) by lia. now apply in_map. }
    { assert (X : forall l, (forall k, In k l -> (k < n)%nat) -> Forall2 (swapped_ok flog) (map (taken names sw) l) (map (taken names reps) l)).
      { induction l as [|k l IH]; intros X; constructor; [|apply IH; intros; apply X; now right]. eapply taken_ok; eauto. apply X. now left. }
      apply X. intros k K. apply in_seq in K. lia. }
    assert (LR : List.length reports = n) by (rewrite <- (F2_length _ _ _ F), map_length, seq_length; reflexivity).
    exists w, reports, reps. split; [exact W|]. split; [rewrite W4; reflexivity|]. split; [unfold stage_reports; rewrite SW, W1; exact E|]. split; [exact LR|]. split; [exact RP|].
    assert (TOT : forall f g, additive f -> (forall r evs, exact_but_least flog (fst r) evs -> g r = f evs) ->
      sumN (map g reports) = rep_sum f (fun _ => true) names reps).
    { intros f g AD FG. rewrite <- (taken_sum f (fun _ => true) n names reps AD RL).
      rewrite <- (map_map (taken names reps) (fun t => f (concat (map snd (filter (fun _ => true) t))))). symmetry. eapply Forall2_sum; [exact F|]. intros parts r _ [H _].
      rewrite filter_true. symmetry. now apply FG. }
    assert (NAM : forall f g name, In name names -> additive f -> (forall r t evs, trx_get (snd r) name = Some t -> exact_but_least flog t evs -> g r = f evs) ->
      sumN (map g reports) = rep_sum f (String.eqb name) names reps).
    { intros f g name IN AD FG. rewrite <- (taken_sum f (String.eqb name) n names reps AD RL).
      rewrite <- (map_map (taken names reps) (fun t => f (concat (map snd (filter (fun p => String.eqb name (fst p)) t))))). symmetry. eapply Forall2_sum; [exact F|]. intros parts r I (_ & _ & H).
      apply in_map_iff in I as (k & <- & I). apply in_seq in I. destruct (H name) as (t & G & X & _); [rewrite NM by lia; exact IN|]. symmetry. eapply FG; eauto. }
    cbn zeta. split; [|split].
    - intros q. apply (TOT (nq q) _ (nq_add q)). intros r evs [H _]. apply (H q).
    - intros code. apply (TOT (nk code) _ (nk_add code)). intros r evs [_ (_ & H & _)]. apply (H code).
    - intros name IN. split.
      + intros q. apply (NAM (nq q) _ name IN (nq_add q)). intros r t evs G [H _]. unfold trx_n. rewrite G. apply (H q).
      + intros code. apply (NAM (nk code) _ name IN (nk_add code)). intros r t evs G [_ (_ & H & _)]. unfold trx_err. rewrite G. apply (H code).
  Qed.

  Lemma plays_acts {V} n (ps : list (played V)) actss : Forall2 (plays n) ps actss -> Forall (fun a => times_ok (loads a)) (concat actss).
  Proof.
    induction 1 as [|p acts ps actss H _ IH]; [constructor|]. cbn [concat]. apply Forall_app. split; [|exact IH].
    destruct H as (_ & _ & _ & _ & [[_ ->]|(_ & _ & H)]); [constructor|]. apply Forall_forall. intros a A. destruct (In_nth_error _ _ A) as (k & E).
    destruct (H _ _ E) as (H0 & _). now apply same_ok in H0.
  Qed.
  Lemma names_of {V} (ps : list (played V)) p name : In p ps -> In (Some name) (c_stats (pl_c p)) -> In name (flat_map (fun p => pnames (pl_c p)) ps).
  Proof. intros Ip In. apply in_flat_map. exists p. split; [exact Ip|]. apply in_flat_map. exists (Some name). split; [exact In|now left]. Qed.

  Lemma stage_counts {V} n (ps : list (played V)) actss :
    Forall2 (plays n) ps actss -> Forall (Forall collected_last) actss -> Forall (Forall (quiet sw_init)) actss ->
    exists w reports, watch_all watch_new (map (fun p => c_stats (pl_c p)) ps) = Some w /\ wt_clients w = cntN (fun p => with_stats (pl_c p)) ps /\
      stage_reports flog w (concat actss) n = Some reports /\ List.length reports = n /\
      (forall q, sumN (map (fun r => total_n r q) reports) = executed ps (fun _ => true) q) /\
      (forall code, sumN (map (fun r => total_err r code) reports) = failed ps (fun _ => true) code) /\
      (forall p name, In p ps -> In (Some name) (c_stats (pl_c p)) ->
        (forall q, sumN (map (fun r => trx_n name r q) reports) = executed ps (String.eqb name) q) /\
        (forall code, sumN (map (fun r => trx_err name r code) reports) = failed ps (String.eqb name) code)).
  Proof.
    intros P CL Q. assert (RE : forall a r, In a (concat actss) -> reported_as a r -> concat r = loads a).
    { intros a r I (s & R & <-). apply in_concat in I as (acts & I1 & I2). apply all_reported; [|
        |exact R]; (eapply (proj1 (Forall_forall _ _)); [eapply (proj1 (Forall_forall _ _)); [|exact I1]|exact I2]); assumption. }
    destruct (stage_sums n ps actss P) as (w & reports & reps & W & W4 & E & L & RP & S1 & S2 & S3).
    { intros a r I R. rewrite (RE a r I R). exact (proj1 (Forall_forall _ _) (plays_acts _ _ _ P) a I). }
    assert (RC : Forall2 (fun a r => concat r = loads a) (concat actss) reps).
    { clear -RP RE. induction RP as [|a r l l' H _ IH]; constructor; [apply RE; [now left|exact H]|]. apply IH. intros b r' B. apply RE. now right. }
    exists w, reports. do 4 (split; [assumption|]). destruct (all_counts n ps actss (fun _ => true) P) as (A1 & A2 & _). split; [|split].
    - intros q. rewrite S1, (rep_loads _ _ _ _ _ RC). apply A1.
    - intros code. rewrite S2, (rep_loads _ _ _ _ _ RC). apply A2.
    - intros p name Ip In. destruct (S3 name (names_of _ _ _ Ip In)) as [T1 T2]. destruct (all_counts n ps actss (String.eqb name) P) as (B1 & B2 & _). split.
      + intros q. rewrite T1, (rep_loads _ _ _ _ _ RC). apply B1.
      + intros code. rewrite T2, (rep_loads _ _ _ _ _ RC). apply B2.
  Qed.

  (** In any interleaving. *)
  Lemma sev_dec : forall x y : sev, {x = y} + {x <> y}.
  Proof. decide equality; try apply Z.eq_dec; try apply N.eq_dec. decide equality. Qed.
  Lemma incl_le f : additive f -> forall xs ys, (forall e, (count_occ sev_dec xs e <= count_occ sev_dec ys e)%nat) -> (f xs <= f ys)%N.
  Proof.
    intros [A0 A1]. induction xs as [|x xs IH]; intros ys H; [rewrite A0; lia|]. assert (I : In x ys).
    { apply (count_occ_In sev_dec). specialize (H x). cbn in H. destruct (sev_dec x x); [lia|congruence]. }
    apply in_split in I as (a & b & ->). change (x :: xs) with ([x] ++ xs). change (a ++ x :: b) with (a ++ [x] ++ b). rewrite !A1.
    assert (f xs <= f (a ++ b))%N; [|rewrite A1 in *; lia]. apply IH. intros e. specialize (H e). rewrite !count_occ_app in *. cbn [count_occ] in H. destruct (sev_dec x e); lia.
  Qed.
  Lemma reported_le a r : reported_as a r -> forall e, (count_occ sev_dec (concat r) e <= count_occ sev_dec (loads a) e)%nat.
  Proof.
    intros (s & R & <-) e. pose proof (C39_at_most_once sev sev_dec _ _ e R) as H. pose proof (loads_run _ _ _ R) as L. cbn in L. rewrite <- L, count_occ_app. lia.
  Qed.
  Lemma stage_le {V} n (ps : list (played V)) actss : Forall2 (plays n) ps actss ->
    exists w reports, watch_all watch_new (map (fun p => c_stats (pl_c p)) ps) = Some w /\
      stage_reports flog w (concat actss) n = Some reports /\ List.length reports = n /\
      (forall q, (sumN (map (fun r => total_n r q) reports) <= executed ps (fun _ => true) q)%N) /\
      (forall code, (sumN (map (fun r => total_err r code) reports) <= failed ps (fun _ => true) code)%N) /\
      (forall p name, In p ps -> In (Some name) (c_stats (pl_c p)) ->
        (forall q, (sumN (map (fun r => trx_n name r q) reports) <= executed ps (String.eqb name) q)%N) /\
        (forall code, (sumN (map (fun r => trx_err name r code) reports) <= failed ps (String.eqb name) code)%N)).
  Proof.
    intros P. destruct (stage_sums n ps actss P) as (w & reports & reps & W & W4 & E & L & RP & S1 & S2 & S3).
    { intros a r I R. assert (T : times_ok (loads a)) by exact (proj1 (Forall_forall _ _) (plays_acts _ _ _ P) a I).
      unfold times_ok in *. rewrite Forall_forall in *. intros d D. apply T. unfold times in *. apply in_flat_map in D as (e & D1 & D2). apply in_flat_map. exists e. split; [|exact D2].
      apply (count_occ_In sev_dec) in D1. apply (count_occ_In sev_dec). pose proof (reported_le a r R e). lia. }
    assert (RC : forall f, additive f -> Forall2 (fun a r => (f (concat r) <= f (loads a))%N) (concat actss) reps).
    { intros f AD. clear -RP AD. induction RP as [|a r l l' H _ IH]; constructor; [|exact IH]. apply incl_le; [exact AD|]. now apply reported_le. }
    exists w, reports. do 3 (split; [assumption|]). destruct (all_counts n ps actss (fun _ => true) P) as (A1 & A2 & _). split; [|split].
    - intros q. rewrite S1, <- A1. apply rep_le, RC, nq_add.
    - intros code. rewrite S2, <- A2. apply rep_le, RC, nk_add.
    - intros p name Ip In. destruct (S3 name (names_of _ _ _ Ip In)) as [T1 T2]. destruct (all_counts n ps actss (String.eqb name) P) as (B1 & B2 & _). split.
      + intros q. rewrite T1, <- B1. apply rep_le, RC, nq_add.
      + intros code. rewrite T2, <- B2. apply rep_le, RC, nk_add.
  Qed.
End Reports.
