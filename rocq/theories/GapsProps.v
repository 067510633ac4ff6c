(** int-gaps: the properties. *)
From Coq Require Import ZArith Lia.
From Verif Require Import Prelude ScopeModel GenModel GapsModel GapsProofs.
#[local] Open Scope Z_scope.
Lemma range : forall min max p g mn mx hi draw,
  new_gaps min max p = Some g ->
  int64_from min 1 = Some mn -> int64_from max 100000 = Some mx ->
  - 2 ^ 48 <= mn <= 2 ^ 48 -> - 2 ^ 48 <= mx <= 2 ^ 48 -> (if mx <? 0 then mx + 1 else mx) <= hi -> 2 <= g_input g ->
  exists v, gaps_values g draw = Some v /\ mn <= v <= hi.
Proof.
  intros min max p g mn mx hi draw H E1 E2 H1 H2 Hhi H3. destruct (int64_from p 20) as [pc|] eqn:E3.
  2: { unfold new_gaps in H. rewrite E1 in H. unfold ROWS in H. rewrite E2, E3 in H. destruct (_ <=? 0); discriminate. }
  destruct (new_gaps_some min max p g mn mx pc E1 E2 E3) as (L1 & L2 & EI & ES & EP); [lia|lia|exact H|].
  pose proof (input_ok (mx - mn + 1) pc) as X. cbv zeta in X. rewrite <- EI in X. destruct X as [X _]; [lia|lia|].
  unfold gaps_values, int63n. destruct (Z.leb_spec (g_input g) 0); [lia|].
  eexists. split; [reflexivity|]. rewrite ES, EP.
  pose proof (value_ok mn mx (g_input g - 1) (Z.of_N draw mod g_input g)) as V.
  assert (0 <= Z.of_N draw mod g_input g < g_input g) by (apply Z.mod_pos_bound; lia).
  destruct V as [V1 V2]; [lia|lia|lia|lia|]. split; [exact V1|]. eapply Z.le_trans; [exact V2|exact Hhi].
Qed.

(** * C13 *)
(** An accepted generator with at least two values to draw from returns values in [min,max].
    Missing: negative maximum, very large numbers and very few values, see below. *)
Theorem C13_range_partial : forall min max p g mn mx draw,
  new_gaps min max p = Some g ->
  int64_from min 1 = Some mn -> int64_from max 100000 = Some mx ->
  - 2 ^ 48 <= mn <= 2 ^ 48 -> 0 <= mx <= 2 ^ 48 -> 2 <= g_input g ->
  exists v, gaps_values g draw = Some v /\ mn <= v <= mx.
Proof. intros. eapply range; eauto; [lia|]. destruct (Z.ltb_spec mx 0); lia. Qed.

(** With a negative maximum the values can exceed it, but by no more than one. *)
Theorem C13_negative_partial : forall min max p g mn mx draw,
  new_gaps min max p = Some g ->
  int64_from min 1 = Some mn -> int64_from max 100000 = Some mx ->
  - 2 ^ 48 <= mn <= 2 ^ 48 -> - 2 ^ 48 <= mx < 0 -> 2 <= g_input g ->
  exists v, gaps_values g draw = Some v /\ mn <= v <= mx + 1.
Proof. intros. eapply range; eauto; [lia|]. destruct (Z.ltb_spec mx 0); lia. Qed.

(** The condition on the number of values holds if [min,max] and the percentage are not both small,
    and there are never more values than numbers in [min,max]. *)
Theorem C13_values : forall min max p g mn mx pc,
  new_gaps min max p = Some g ->
  int64_from min 1 = Some mn -> int64_from max 100000 = Some mx -> int64_from p 20 = Some pc ->
  - 2 ^ 48 <= mn <= 2 ^ 48 -> - 2 ^ 48 <= mx <= 2 ^ 48 ->
  g_input g <= mx - mn + 1 /\ (300 <= (mx - mn + 1) * pc -> 2 <= g_input g).
Proof.
  intros min max p g mn mx pc H E1 E2 E3 H1 H2.
  destruct (new_gaps_some min max p g mn mx pc E1 E2 E3) as (L1 & L2 & EI & ES & EP); [lia|lia|exact H|].
  pose proof (input_ok (mx - mn + 1) pc) as X. cbv zeta in X. rewrite <- EI in X. destruct X as [X Y]; [lia|lia|].
  split; [lia|exact Y].
Qed.

(** Which parameters are accepted. *)
Theorem C13_accepted : forall min max p mn mx pc,
  int64_from min 1 = Some mn -> int64_from max 100000 = Some mx -> int64_from p 20 = Some pc ->
  - 2 ^ 62 < mn < 2 ^ 62 -> - 2 ^ 62 < mx < 2 ^ 62 ->
  (new_gaps min max p <> None <-> mn <= mx /\ 1 <= pc <= 100).
Proof.
  intros min max p mn mx pc E1 E2 E3 H1 H2. unfold new_gaps, ROWS. rewrite E1, E2, E3.
  assert (W : forall z, (- 2 ^ 63 <= z < 2 ^ 63)%Z -> i64 z = z) by (intros z Hz; unfold i64; rewrite Z.mod_small by lia; lia).
  rewrite (W (mx - mn)), (W (mx - mn + 1)) by lia.
  destruct (Z.leb_spec (mx - mn + 1) 0); [split; [congruence|lia]|].
  destruct (Z.ltb_spec pc 1); [split; [cbn; congruence|lia]|]. destruct (Z.ltb_spec 100 pc); [split; [cbn; congruence|lia]|].
  cbn. split; [lia|discriminate].
Qed.

Lemma check f o : match o with Some g => f g | None => false end = true -> exists g : gaps, o = Some g /\ f g = true.
Proof. destruct o as [g|]; [eauto|discriminate]. Qed.
Definition val_eqb (a b : option Z) : bool := match a, b with Some x, Some y => x =? y | None, None => true | _, _ => false end.
Lemma val_eqb_eq a b : val_eqb a b = true -> a = b.
Proof. destruct a, b; cbn; try discriminate; [|reflexivity]. rewrite Z.eqb_eq. congruence. Qed.
Lemma check_vals o n ds vs :
  match o with Some g => ((g_input g =? n) && forallb (fun dv => val_eqb (gaps_values g (fst dv)) (snd dv)) (combine ds vs))%bool | None => false end = true ->
  List.length ds = List.length vs ->
  exists g, o = Some g /\ g_input g = n /\ map (gaps_values g) ds = vs.
Proof.
  intros H L. destruct o as [g|]; [|discriminate]. exists g. apply andb_true_iff in H as [H1 H2]. apply Z.eqb_eq in H1.
  split; [reflexivity|]. split; [exact H1|]. clear H1. revert vs L H2. induction ds as [|d ds IH]; intros [|v vs] L H2; try discriminate; [reflexivity|].
  cbn in H2. apply andb_true_iff in H2 as [H2 H3]. cbn. f_equal; [now apply val_eqb_eq|]. apply IH; [now injection L|exact H3].
Qed.

(** Accepted generators can crash, ... *)
Theorem C13_refuted :
  (exists g, new_gaps (PVal 1) (PVal 4) PNone = Some g /\ forall draw, gaps_values g draw = None)
(** ... return a number far below min, ... *)
  /\ (exists g, new_gaps (PVal 1) (PVal 9) PNone = Some g /\ forall draw, gaps_values g draw = Some (- 2 ^ 63))
(** ... or above max. *)
  /\ (exists g draw v, new_gaps (PVal (-22)) (PVal (-1)) (PVal 91) = Some g /\ gaps_values g draw = Some v /\ -1 < v)
  /\ (exists g draw v, new_gaps (PVal 46751) (PVal 7887299067390708021) (PVal 81) = Some g
        /\ gaps_values g draw = Some v /\ 7887299067390708021 < v).
Proof.
  split; [|split; [|split]].
  - destruct (check_vals (new_gaps (PVal 1) (PVal 4) PNone) 0 [] []) as (g & E & H & _); [vm_compute; reflexivity|reflexivity|].
    exists g. split; [exact E|]. intros draw. unfold gaps_values. now rewrite H.
  - destruct (check_vals (new_gaps (PVal 1) (PVal 9) PNone) 1 [0%N] [Some (- 2 ^ 63)]) as (g & E & H & V); [vm_compute; reflexivity|reflexivity|].
    exists g. split; [exact E|]. intros draw. transitivity (gaps_values g 0); [|cbn [map] in V; congruence].
    unfold gaps_values. rewrite H. unfold int63n. cbn [Z.leb Z.compare].
    now rewrite !Z.mod_1_r.
  - destruct (check_vals (new_gaps (PVal (-22)) (PVal (-1)) (PVal 91)) 20 [19%N] [Some 0]) as (g & E & _ & V); [vm_compute; reflexivity|reflexivity|].
    exists g, 19%N, 0. split; [exact E|]. split; [cbn [map] in V; congruence|reflexivity].
  - destruct (check_vals (new_gaps (PVal 46751) (PVal 7887299067390708021) (PVal 81)) (Z.of_N 6388712244586436607 + 1) [6388712244586436607%N] [Some 7887299067390708736]) as (g & E & _ & V);
      [vm_compute; reflexivity|reflexivity|].
    exists g, 6388712244586436607%N, 7887299067390708736. split; [exact E|]. split; [cbn [map] in V; congruence|reflexivity].
Qed.

Example C13_negative_meets : exists g, new_gaps (PVal (-22)) (PVal (-1)) (PVal 91) = Some g /\ g_input g = 20
  /\ map (gaps_values g) [0; 1; 18; 19]%N = [Some (-22); Some (-20); Some (-2); Some 0].
Proof. apply check_vals; vm_compute; reflexivity. Qed.
(** * C79 *)
Lemma values_increase : forall min max p g mn mx,
  new_gaps min max p = Some g ->
  int64_from min 1 = Some mn -> int64_from max 100000 = Some mx ->
  0 <= mn -> mn <= 2 ^ 42 -> - 2 ^ 42 <= mx <= 2 ^ 42 -> 2 <= g_input g ->
  forall n d, (Z.of_N d + 1 + Z.of_nat n < g_input g) ->
  exists v1 v2, gaps_values g d = Some v1 /\ gaps_values g (d + 1 + N.of_nat n) = Some v2 /\ v1 < v2.
Proof.
  intros min max p g mn mx H E1 E2 H1 H2 H3 H4. destruct (int64_from p 20) as [pc|] eqn:E3.
  2: { unfold new_gaps in H. rewrite E1 in H. unfold ROWS in H. rewrite E2, E3 in H. destruct (_ <=? 0); discriminate. }
  destruct (new_gaps_some min max p g mn mx pc E1 E2 E3) as (L1 & L2 & EI & ES & EP); [lia|lia|exact H|].
  pose proof (input_ok (mx - mn + 1) pc) as X. cbv zeta in X. rewrite <- EI in X. destruct X as [X _]; [lia|lia|].
  pose proof (input_count (mx - mn + 1) pc) as Y. cbv zeta in Y. rewrite <- EI in Y. specialize (Y ltac:(lia) L2).
  assert (V : forall d, Z.of_N d < g_input g -> gaps_values g d =
     Some (to_int (fadd (of_int mn) (fmul (of_int (Z.of_N d)) (fdiv (of_int (mx - mn)) (of_int (g_input g - 1))))))).
  { intros d Hd. unfold gaps_values, int63n. destruct (Z.leb_spec (g_input g) 0); [lia|]. rewrite Z.mod_small by lia. now rewrite ES, EP. }
  assert (W : forall r, 0 <= r < g_input g - 1 ->
     to_int (fadd (of_int mn) (fmul (of_int r) (fdiv (of_int (mx - mn)) (of_int (g_input g - 1)))))
     < to_int (fadd (of_int mn) (fmul (of_int (r + 1)) (fdiv (of_int (mx - mn)) (of_int (g_input g - 1)))))).
  { intros r Hr. apply (value_step mn (mx - mn) (g_input g - 1) r); try lia.
    destruct (Z.eq_dec pc 100) as [->|N].
    - left. rewrite input_100 in EI by lia. lia.
    - right. nia. }
  intros n d. induction n as [|n IH]; intros Hd.
  - rewrite !V by lia. eexists. eexists. split; [reflexivity|]. split; [reflexivity|].
    replace (Z.of_N (d + 1 + N.of_nat 0)) with (Z.of_N d + 1) by lia. apply W. lia.
  - destruct IH as (v1 & v2 & A & B & C); [lia|]. rewrite V in B by lia. exists v1. eexists. split; [exact A|]. split; [apply V; lia|].
    injection B as B. rewrite <- B in C. eapply Z.lt_trans; [exact C|].
    replace (Z.of_N (d + 1 + N.of_nat (S n))) with (Z.of_N (d + 1 + N.of_nat n) + 1) by lia. apply W. lia.
Qed.

(** Different draws give different values.  Missing: negative numbers and numbers above 2^42. *)
Theorem C79_distinct_partial : forall min max p g mn mx,
  new_gaps min max p = Some g ->
  int64_from min 1 = Some mn -> int64_from max 100000 = Some mx ->
  0 <= mn <= 2 ^ 42 -> 0 <= mx <= 2 ^ 42 -> 2 <= g_input g ->
  forall d1 d2, (d1 < d2)%N -> Z.of_N d2 < g_input g ->
  exists v1 v2, gaps_values g d1 = Some v1 /\ gaps_values g d2 = Some v2 /\ v1 < v2.
Proof.
  intros min max p g mn mx H E1 E2 H1 H2 H3 d1 d2 L L'.
  destruct (values_increase min max p g mn mx H E1 E2) with (n := N.to_nat (d2 - d1 - 1)) (d := d1) as (v1 & v2 & A & B & C); try lia.
  replace (d1 + 1 + N.of_nat (N.to_nat (d2 - d1 - 1)))%N with d2 in B by lia. eauto.
Qed.

(** The number of values is p percent of the numbers in [min,max], at most one less. *)
Theorem C79_count_partial : forall min max p g mn mx pc,
  new_gaps min max p = Some g ->
  int64_from min 1 = Some mn -> int64_from max 100000 = Some mx -> int64_from p 20 = Some pc ->
  - 2 ^ 41 <= mn <= 2 ^ 41 -> - 2 ^ 41 <= mx <= 2 ^ 41 ->
  100 * g_input g <= (mx - mn + 1) * pc <= 100 * (g_input g + 1).
Proof.
  intros min max p g mn mx pc H E1 E2 E3 H1 H2.
  destruct (new_gaps_some min max p g mn mx pc E1 E2 E3) as (L1 & L2 & EI & ES & EP); [lia|lia|exact H|].
  pose proof (input_count (mx - mn + 1) pc) as Y. cbv zeta in Y. rewrite <- EI in Y. apply Y; lia.
Qed.

(** With negative numbers or very large numbers different draws can give the same value; the number
    of values can be one less than p percent. *)
Theorem C79_refuted :
  (exists g, new_gaps (PVal (-2)) (PVal 2) (PVal 80) = Some g /\ g_input g = 4
     /\ gaps_values g 1 = Some 0 /\ gaps_values g 2 = Some 0)
  /\ (exists g, new_gaps (PVal 0) (PVal (2 ^ 62)) (PVal 50) = Some g /\ 2 ^ 60 + 1 < g_input g
     /\ gaps_values g (2 ^ 60) = Some (2 ^ 61) /\ gaps_values g (2 ^ 60 + 1) = Some (2 ^ 61))
  /\ (exists g, new_gaps (PVal 1) (PVal 100) (PVal 29) = Some g /\ g_input g = 28).
Proof.
  split; [|split].
  - destruct (check_vals (new_gaps (PVal (-2)) (PVal 2) (PVal 80)) 4 [1; 2]%N [Some 0; Some 0]) as (g & E & H & V); [vm_compute; reflexivity|reflexivity|].
    exists g. cbn [map] in V. repeat split; congruence.
  - destruct (check_vals (new_gaps (PVal 0) (PVal (2 ^ 62)) (PVal 50)) (2 ^ 61) [2 ^ 60; 2 ^ 60 + 1]%N [Some (2 ^ 61); Some (2 ^ 61)]) as (g & E & H & V); [vm_compute; reflexivity|reflexivity|].
    exists g. cbn [map] in V. split; [exact E|]. split; [rewrite H; reflexivity|]. split; congruence.
  - destruct (check_vals (new_gaps (PVal 1) (PVal 100) (PVal 29)) 28 [] []) as (g & E & H & _); [vm_compute; reflexivity|reflexivity|].
    eauto.
Qed.

(** The default: 20% of the values from 1 to 100000. *)
Example C13_default : exists g, new_gaps PNone PNone PNone = Some g /\ g_input g = 20000
  /\ map (gaps_values g) [0; 1; 19999]%N = [Some 1; Some 6; Some 100000].
Proof. apply check_vals; vm_compute; reflexivity. Qed.
Example C13_meets : (exists g, new_gaps (PVal (-5)) (PVal 10) (PVal 50) = Some g /\ g_input g = 8
  /\ map (gaps_values g) [0; 1; 2; 7]%N = [Some (-5); Some (-2); Some 0; Some 10]) /\ 300 <= (10 - -5 + 1) * 50.
Proof. split; [apply check_vals; vm_compute; reflexivity|lia]. Qed.

Print Assumptions C13_range_partial.
Print Assumptions C13_negative_partial.
Print Assumptions C13_values.
Print Assumptions C13_accepted.
Print Assumptions C13_refuted.
Print Assumptions C79_distinct_partial.
Print Assumptions C79_count_partial.
Print Assumptions C79_refuted.
