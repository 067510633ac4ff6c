(** int-gaps: bounds on the floating point computations. *)
From Coq Require Import ZArith Reals Psatz.
From Verif Require Import Prelude ScopeModel GenModel GapsModel.
From Flocq Require Import Core BinarySingleNaN Relative.
#[local] Open Scope R_scope.

(** * Rounding *)
Notation rnd := (round radix2 (SpecFloat.fexp 53 1024) ZnearestE).
Lemma fexp_FLT : SpecFloat.fexp 53 1024 = FLT_exp (-1074) 53.
Proof. reflexivity. Qed.
#[local] Instance valid_fexp : Valid_exp (SpecFloat.fexp 53 1024).
Proof. rewrite fexp_FLT. apply FLT_exp_valid. reflexivity. Qed.

(** Numbers with few binary digits are exact. *)
Lemma exact (m e : Z) : (Z.abs m < 2 ^ 53)%Z -> (-1074 <= e)%Z -> rnd (IZR m * bpow radix2 e) = IZR m * bpow radix2 e.
Proof.
  intros Hm He. apply round_generic; [apply valid_rnd_N|]. rewrite fexp_FLT. apply generic_format_FLT.
  apply (FLT_spec _ _ _ _ (Float radix2 m e)); [reflexivity|exact Hm|exact He].
Qed.
Lemma exact_int m : (Z.abs m < 2 ^ 53)%Z -> rnd (IZR m) = IZR m.
Proof. intros Hm. pose proof (exact m 0 Hm) as H. cbn in H. rewrite Rmult_1_r in H. apply H. lia. Qed.
Lemma exact_quarter m : (Z.abs m < 2 ^ 50)%Z -> rnd (IZR m + / 4) = IZR m + / 4.
Proof.
  intros Hm. assert (E : IZR m + / 4 = IZR (4 * m + 1) * bpow radix2 (-2)).
  { rewrite plus_IZR, mult_IZR. change (bpow radix2 (-2)) with (/ 4). field. }
  rewrite E. apply exact; lia.
Qed.
Lemma rnd_le x y : x <= y -> rnd x <= rnd y.
Proof. apply round_le; [apply valid_fexp|apply valid_rnd_N]. Qed.

Lemma fits x : Rabs x <= IZR (2 ^ 60) -> Rlt_bool (Rabs x) (bpow radix2 1024) = true.
Proof.
  intros H. apply Rlt_bool_true. apply Rle_lt_trans with (1 := H). change (IZR (2 ^ 60)) with (bpow radix2 60). now apply bpow_lt.
Qed.
Lemma rnd_fits x : Rabs x <= IZR (2 ^ 50) -> Rabs (rnd x) <= IZR (2 ^ 60).
Proof.
  intros H. apply Rabs_le_inv in H. apply Rabs_le.
  assert (E : rnd (IZR (2 ^ 50)) = IZR (2 ^ 50)) by now apply exact_int.
  assert (E' : rnd (IZR (- 2 ^ 50)) = IZR (- 2 ^ 50)) by now apply exact_int.
  assert (L : IZR (2 ^ 50) <= IZR (2 ^ 60)) by now apply IZR_le.
  assert (H1 : rnd (IZR (- 2 ^ 50)) <= rnd x) by (apply rnd_le; rewrite opp_IZR; lra).
  assert (H2 : rnd x <= rnd (IZR (2 ^ 50))) by (apply rnd_le; lra).
  rewrite E' in H1. rewrite E in H2. rewrite opp_IZR in H1. lra.
Qed.

(** The operations, for numbers that are not too large. *)
Lemma of_int_ok z : (Z.abs z <= 2 ^ 51)%Z -> B2R (of_int z) = IZR z /\ is_finite (of_int z) = true.
Proof.
  intros H. unfold of_int. pose proof (binary_normalize_correct 53 1024 prec53 emax1024 mode_NE z 0 false) as X.
  cbv zeta in X. unfold F2R in X. cbn [Fnum Fexp bpow round_mode] in X. rewrite Rmult_1_r in X.
  rewrite exact_int in X by lia. rewrite fits in X.
  - destruct X as (X & Y & _). auto.
  - rewrite <- abs_IZR. apply IZR_le. lia.
Qed.
Lemma fmul_ok x y : is_finite x = true -> is_finite y = true -> Rabs (B2R x * B2R y) <= IZR (2 ^ 50) ->
  B2R (fmul x y) = rnd (B2R x * B2R y) /\ is_finite (fmul x y) = true.
Proof.
  intros Fx Fy H. unfold fmul. pose proof (Bmult_correct 53 1024 prec53 emax1024 mode_NE x y) as X. cbn [round_mode] in X.
  rewrite (fits _ (rnd_fits _ H)), Fx, Fy in X. destruct X as (X & Y & _). auto.
Qed.
Lemma fadd_ok x y : is_finite x = true -> is_finite y = true -> Rabs (B2R x + B2R y) <= IZR (2 ^ 50) ->
  B2R (fadd x y) = rnd (B2R x + B2R y) /\ is_finite (fadd x y) = true.
Proof.
  intros Fx Fy H. unfold fadd. pose proof (Bplus_correct 53 1024 prec53 emax1024 mode_NE x y Fx Fy) as X. cbn [round_mode] in X.
  rewrite (fits _ (rnd_fits _ H)) in X. destruct X as (X & Y & _). auto.
Qed.
Lemma fdiv_ok x y : is_finite x = true -> B2R y <> 0 -> Rabs (B2R x / B2R y) <= IZR (2 ^ 50) ->
  B2R (fdiv x y) = rnd (B2R x / B2R y) /\ is_finite (fdiv x y) = true.
Proof.
  intros Fx Fy H. unfold fdiv. pose proof (Bdiv_correct 53 1024 prec53 emax1024 mode_NE x y Fy) as X. cbn [round_mode] in X.
  rewrite (fits _ (rnd_fits _ H)), Fx in X. destruct X as (X & Y & _). auto.
Qed.
Lemma to_int_ok x lo hi : is_finite x = true -> IZR lo <= B2R x -> B2R x < IZR hi + 1 -> (- 2 ^ 60 <= lo)%Z -> (0 <= hi <= 2 ^ 60)%Z ->
  (lo <= to_int x <= hi)%Z /\ to_int x = Ztrunc (B2R x).
Proof.
  intros F H1 H2 L1 L2. unfold to_int. rewrite F.
  assert (E : Btrunc x = Ztrunc (B2R x)).
  { apply eq_IZR. rewrite (Btrunc_correct 53 1024 emax1024 x). apply round_FIX_IZR. }
  assert (A : (lo <= Ztrunc (B2R x))%Z) by (rewrite <- (Ztrunc_IZR lo); now apply Ztrunc_le).
  assert (B : (Ztrunc (B2R x) <= hi)%Z).
  { destruct (Rle_or_lt 0 (B2R x)) as [P|P].
    - rewrite Ztrunc_floor by exact P. apply Z.lt_succ_r. apply lt_IZR. rewrite succ_IZR. eapply Rle_lt_trans; [apply Zfloor_lb|exact H2].
    - apply Z.le_trans with 0%Z; [|lia]. rewrite <- (Ztrunc_IZR 0). apply Ztrunc_le. lra. }
  cbv zeta. rewrite E. replace ((- 2 ^ 63 <=? Ztrunc (B2R x)) && (Ztrunc (B2R x) <? 2 ^ 63))%Z%bool with true.
  - auto.
  - symmetry. apply andb_true_iff. rewrite Z.leb_le, Z.ltb_lt. lia.
Qed.

(** * The parts of int-gaps *)
Lemma percent p : (1 <= p <= 100)%Z ->
  let u := fdiv (of_int p) (of_int 100) in
  is_finite u = true /\ IZR p / 100 * (1 - / IZR (2 ^ 53)) <= B2R u <= 1.
Proof.
  intros Hp. cbv zeta. destruct (of_int_ok p) as [E1 F1]; [lia|]. destruct (of_int_ok 100) as [E2 F2]; [lia|].
  assert (P1 : 1 <= IZR p) by (apply IZR_le; lia). assert (P2 : IZR p <= 100) by (apply IZR_le; lia).
  destruct (fdiv_ok (of_int p) (of_int 100)) as [E F]; [exact F1|rewrite E2; lra|rewrite E1, E2|].
  { rewrite Rabs_pos_eq by lra. assert (100 <= IZR (2 ^ 50)) by (apply IZR_le; lia). lra. }
  split; [exact F|]. rewrite E, E1, E2. split.
  - assert (X : Rabs (rnd (IZR p / 100) - IZR p / 100) <= / 2 * bpow radix2 (-53 + 1) * Rabs (IZR p / 100)).
    { rewrite fexp_FLT. apply (relative_error_N_FLT radix2 (-1074) 53); [lia|]. rewrite Rabs_pos_eq by lra.
      apply Rle_trans with (bpow radix2 (-7)); [now apply bpow_le|change (bpow radix2 (-7)) with (/ 128); lra]. }
    rewrite (Rabs_pos_eq (IZR p / 100)) in X by lra. apply Rabs_le_inv in X.
    replace (/ IZR (2 ^ 53)) with (/ 2 * bpow radix2 (-53 + 1)) by (change (bpow radix2 (-53 + 1)) with (/ IZR 4503599627370496); change (2 ^ 53)%Z with 9007199254740992%Z; lra). lra.
  - rewrite <- (exact_int 1) by lia. apply rnd_le. lra.
Qed.

Lemma input_ok size p : (1 <= size <= 2 ^ 50)%Z -> (1 <= p <= 100)%Z ->
  let input := to_int (fmul (of_int size) (fdiv (of_int p) (of_int 100))) in
  (0 <= input <= size)%Z /\ ((300 <= size * p)%Z -> (2 <= input)%Z).
Proof.
  intros Hs Hp. cbv zeta. destruct (percent p Hp) as [Fu Hu]. cbv zeta in Hu. set (u := fdiv (of_int p) (of_int 100)) in *.
  destruct (of_int_ok size) as [E1 F1]; [lia|].
  assert (P1 : 1 <= IZR size) by (apply IZR_le; lia). assert (P2 : IZR size <= IZR (2 ^ 50)) by (apply IZR_le; lia).
  assert (Q1 : 1 <= IZR p) by (apply IZR_le; lia).
  assert (H0 : 0 <= B2R u).
  { apply Rle_trans with (2 := proj1 Hu). apply Rmult_le_pos; [lra|]. change (2 ^ 53)%Z with 9007199254740992%Z. lra. }
  destruct (fmul_ok (of_int size) u F1 Fu) as [E F].
  { rewrite E1, Rabs_pos_eq by (apply Rmult_le_pos; lra). apply Rle_trans with (IZR size * 1); [apply Rmult_le_compat_l; lra|lra]. }
  assert (B1 : 0 <= B2R (fmul (of_int size) u)).
  { rewrite E, E1. rewrite <- (exact_int 0) by lia. apply rnd_le. apply Rmult_le_pos; lra. }
  assert (B2 : B2R (fmul (of_int size) u) <= IZR size).
  { rewrite E, E1. rewrite <- (exact_int size) by lia. apply rnd_le. rewrite (exact_int size) by lia.
    apply Rle_trans with (IZR size * 1); [apply Rmult_le_compat_l; lra|lra]. }
  destruct (to_int_ok (fmul (of_int size) u) 0 size F B1) as [H1 H2]; [lra|lia|lia|]. split; [exact H1|]. intros H3.
  rewrite H2. rewrite <- (Ztrunc_IZR 2). apply Ztrunc_le. rewrite E, E1. rewrite <- (exact_int 2) by lia. apply rnd_le.
  apply Rle_trans with (IZR size * (IZR p / 100 * (1 - / IZR (2 ^ 53)))); [|apply Rmult_le_compat_l; lra].
  assert (H4 : 300 <= IZR size * IZR p) by (rewrite <- mult_IZR; now apply IZR_le).
  replace (IZR size * (IZR p / 100 * (1 - / IZR (2 ^ 53)))) with ((IZR size * IZR p) * ((1 - / IZR (2 ^ 53)) / 100)) by (change (2 ^ 53)%Z with 9007199254740992%Z; field).
  apply Rle_trans with (300 * ((1 - / IZR (2 ^ 53)) / 100)); [change (2 ^ 53)%Z with 9007199254740992%Z; lra|]. apply Rmult_le_compat_r; [change (2 ^ 53)%Z with 9007199254740992%Z; lra|exact H4].
Qed.

Lemma value_real mn mx n r : (- 2 ^ 48 <= mn <= mx)%Z -> (mx <= 2 ^ 48)%Z -> (1 <= n <= 2 ^ 50)%Z -> (0 <= r <= n)%Z ->
  let x := fadd (of_int mn) (fmul (of_int r) (fdiv (of_int (mx - mn)) (of_int n))) in
  is_finite x = true /\ IZR mn <= B2R x <= IZR mx + / 4
  /\ let sl := rnd (IZR (mx - mn) / IZR n) in
     B2R x = rnd (IZR mn + rnd (IZR r * sl)) /\ 0 <= IZR r * sl <= IZR (mx - mn) + / 4 /\ 0 <= rnd (IZR r * sl) <= IZR (mx - mn) + / 4.
Proof.
  cbv zeta.
  intros Hmn Hmx Hn Hr.
  destruct (of_int_ok mn) as [E1 F1]; [lia|]. destruct (of_int_ok (mx - mn)) as [E2 F2]; [lia|].
  destruct (of_int_ok n) as [E3 F3]; [lia|]. destruct (of_int_ok r) as [E4 F4]; [lia|].
  set (D := (mx - mn)%Z) in *.
  assert (ND : 0 <= IZR D <= IZR (2 ^ 49)) by (split; apply IZR_le; lia).
  assert (NN : 1 <= IZR n) by (apply IZR_le; lia). assert (NR : 0 <= IZR r <= IZR n) by (split; apply IZR_le; lia).
  assert (K50 : IZR (2 ^ 49) + 1 <= IZR (2 ^ 50)) by (rewrite <- plus_IZR; apply IZR_le; lia).
  assert (Q : 0 <= IZR D / IZR n <= IZR D).
  { split; [apply Rmult_le_pos; [lra|apply Rlt_le, Rinv_0_lt_compat; lra]|].
    apply Rmult_le_reg_r with (IZR n); [lra|]. replace (IZR D / IZR n * IZR n) with (IZR D) by (field; lra).
    rewrite <- (Rmult_1_r (IZR D)) at 1. apply Rmult_le_compat_l; lra. }
  destruct (fdiv_ok (of_int D) (of_int n) F2) as [E5 F5]; [rewrite E3; lra|rewrite E2, E3, Rabs_pos_eq; lra|].
  rewrite E2, E3 in E5. set (sl := fdiv (of_int D) (of_int n)) in *.
  assert (S0 : 0 <= B2R sl) by (rewrite E5; rewrite <- (exact_int 0) by lia; apply rnd_le; lra).
  assert (S1 : IZR n * B2R sl <= IZR D + / 4).
  { destruct (Z.eq_dec D 0) as [Z0|Z0].
    - rewrite E5, Z0. replace (0 / IZR n) with (IZR 0) by (field; lra). rewrite (exact_int 0) by lia. lra.
    - assert (1 <= IZR D) by (apply IZR_le; lia).
      assert (X : Rabs (rnd (IZR D / IZR n) - IZR D / IZR n) <= / 2 * bpow radix2 (-53 + 1) * Rabs (IZR D / IZR n)).
      { rewrite fexp_FLT. apply (relative_error_N_FLT radix2 (-1074) 53); [lia|]. rewrite Rabs_pos_eq by lra.
        apply Rle_trans with (bpow radix2 (-50)); [now apply bpow_le|].
        apply Rmult_le_reg_r with (IZR n); [lra|]. replace (IZR D / IZR n * IZR n) with (IZR D) by (field; lra).
        apply Rle_trans with 1; [|lra]. apply Rle_trans with (bpow radix2 (-50) * IZR (2 ^ 50)).
        - apply Rmult_le_compat_l; [apply bpow_ge_0|apply IZR_le; lia].
        - change (IZR (2 ^ 50)) with (bpow radix2 50). rewrite <- bpow_plus. change (bpow radix2 (-50 + 50)) with 1. lra. }
      rewrite (Rabs_pos_eq (IZR D / IZR n)) in X by lra. apply Rabs_le_inv in X. rewrite E5.
      apply Rle_trans with (IZR n * (IZR D / IZR n * (1 + / 2 * bpow radix2 (-53 + 1)))).
      + apply Rmult_le_compat_l; lra.
      + replace (IZR n * (IZR D / IZR n * (1 + / 2 * bpow radix2 (-53 + 1)))) with (IZR D * (1 + / 2 * bpow radix2 (-53 + 1))) by (field; lra).
        rewrite Rmult_plus_distr_l, Rmult_1_r. apply Rplus_le_compat_l.
        apply Rle_trans with (IZR (2 ^ 49) * (/ 2 * bpow radix2 (-53 + 1))); [apply Rmult_le_compat_r; [apply Rmult_le_pos; [lra|apply bpow_ge_0]|lra]|].
        change (bpow radix2 (-53 + 1)) with (/ IZR 4503599627370496). change (2 ^ 49)%Z with 562949953421312%Z. lra. }
  assert (P0 : 0 <= IZR r * B2R sl) by (apply Rmult_le_pos; lra).
  assert (P1 : IZR r * B2R sl <= IZR D + / 4) by (apply Rle_trans with (IZR n * B2R sl); [apply Rmult_le_compat_r; lra|exact S1]).
  destruct (fmul_ok (of_int r) sl F4 F5) as [E6 F6]; [rewrite E4, Rabs_pos_eq; lra|]. rewrite E4 in E6.
  assert (V0 : 0 <= B2R (fmul (of_int r) sl)) by (rewrite E6; rewrite <- (exact_int 0) by lia; apply rnd_le; lra).
  assert (V1 : B2R (fmul (of_int r) sl) <= IZR D + / 4).
  { rewrite E6. rewrite <- (exact_quarter D) by lia. apply rnd_le. exact P1. }
  set (pr := fmul (of_int r) sl) in *.
  assert (EQ : IZR mn + IZR D = IZR mx) by (rewrite <- plus_IZR; f_equal; lia).
  assert (Bmn : - IZR (2 ^ 49) <= IZR mn) by (rewrite <- opp_IZR; apply IZR_le; lia).
  assert (Bmx : IZR mx <= IZR (2 ^ 49)) by (apply IZR_le; lia).
  destruct (fadd_ok (of_int mn) pr F1 F6) as [E7 F7]; [rewrite E1; apply Rabs_le; lra|]. rewrite E1 in E7.
  split; [exact F7|]. split; [split|].
  3: { cbv zeta. fold D. rewrite <- E5, <- E6. split; [exact E7|]. split; [split; assumption|split; assumption]. }
  - rewrite E7. rewrite <- (exact_int mn) at 1 by lia. apply rnd_le. lra.
  - rewrite E7. rewrite <- (exact_quarter mx) by lia. apply rnd_le. lra.
Qed.

Lemma value_ok mn mx n r : (- 2 ^ 48 <= mn <= mx)%Z -> (mx <= 2 ^ 48)%Z -> (1 <= n <= 2 ^ 50)%Z -> (0 <= r <= n)%Z ->
  (mn <= to_int (fadd (of_int mn) (fmul (of_int r) (fdiv (of_int (mx - mn)) (of_int n)))) <= if mx <? 0 then mx + 1 else mx)%Z.
Proof.
  intros Hmn Hmx Hn Hr. destruct (value_real mn mx n r Hmn Hmx Hn Hr) as (F & (H1 & H2) & _). cbv zeta in H2.
  destruct (Z.ltb_spec mx 0) as [L|L].
  - destruct (to_int_ok _ mn 0 F H1) as [X Y]; [|lia|lia|].
    + assert (IZR mx <= -1) by (apply IZR_le; lia). lra.
    + split; [apply X|]. rewrite Y. rewrite Ztrunc_ceil.
      * apply Z.le_trans with (Zceil (IZR (mx + 1))); [apply Zceil_le; rewrite plus_IZR; lra|rewrite Zceil_IZR; lia].
      * assert (IZR mx <= -1) by (apply IZR_le; lia). lra.
  - apply to_int_ok; [exact F|exact H1|lra|lia|lia].
Qed.

Lemma new_gaps_some min max p g mn mx pc : int64_from min 1 = Some mn -> int64_from max ROWS = Some mx -> int64_from p 20 = Some pc ->
  (- 2 ^ 48 <= mn <= 2 ^ 48)%Z -> (- 2 ^ 48 <= mx <= 2 ^ 48)%Z -> new_gaps min max p = Some g ->
  (mn <= mx)%Z /\ (1 <= pc <= 100)%Z
  /\ g_input g = to_int (fmul (of_int (mx - mn + 1)) (fdiv (of_int pc) (of_int 100)))
  /\ g_start g = of_int mn /\ g_slope g = fdiv (of_int (mx - mn)) (of_int (g_input g - 1)).
Proof.
  intros E1 E2 E3 H1 H2 H. unfold new_gaps in H. rewrite E1, E2, E3 in H.
  assert (W : forall z, (- 2 ^ 60 <= z <= 2 ^ 60)%Z -> i64 z = z) by (intros z Hz; unfold i64; rewrite Z.mod_small by lia; lia).
  rewrite (W (mx - mn)%Z) in H by lia. rewrite (W (mx - mn + 1)%Z) in H by lia.
  destruct (Z.leb_spec (mx - mn + 1) 0); [discriminate|]. destruct (Z.ltb_spec pc 1); [discriminate|]. destruct (Z.ltb_spec 100 pc); [discriminate|].
  cbn [orb] in H. cbv zeta in H. assert (X : forall a b : gaps, Some a = Some b -> b = a) by (intros a b X; now injection X).
  apply X in H. clear X. rewrite H. cbn [g_input g_start g_slope].
  split; [lia|]. split; [lia|]. split; [reflexivity|]. split; [reflexivity|]. apply f_equal. apply f_equal. apply W.
  pose proof (input_ok (mx - mn + 1) pc) as X. cbv zeta in X. destruct X as [X _]; [lia|lia|]. lia.
Qed.

(** * How many values *)
Lemma error x : Rabs x <= IZR (2 ^ 43) -> Rabs (rnd x - x) <= / 512.
Proof.
  intros H. rewrite fexp_FLT. destruct (error_N_FLT radix2 (-1074) 53 eq_refl (fun z => negb (Z.even z)) x) as (eps & eta & H1 & H2 & _ & E).
  rewrite E. replace (x * (1 + eps) + eta - x) with (x * eps + eta) by ring.
  apply Rle_trans with (1 := Rabs_triang _ _). rewrite Rabs_mult.
  assert (H3 : Rabs x * Rabs eps <= IZR (2 ^ 43) * (/ 2 * bpow radix2 (-53 + 1))) by (apply Rmult_le_compat; auto using Rabs_pos).
  assert (H4 : Rabs eta <= / 2 * bpow radix2 (-11)).
  { apply Rle_trans with (1 := H2). apply Rmult_le_compat_l; [lra|]. now apply bpow_le. }
  change (bpow radix2 (-53 + 1)) with (/ IZR 4503599627370496) in H3. change (bpow radix2 (-11)) with (/ 2048) in H4.
  change (2 ^ 43)%Z with 8796093022208%Z in H3. lra.
Qed.

Lemma exact_256 m k : (Z.abs m < 2 ^ 44)%Z -> (0 <= k < 256)%Z -> rnd (IZR m + IZR k / 256) = IZR m + IZR k / 256.
Proof.
  intros Hm Hk. assert (E : IZR m + IZR k / 256 = IZR (256 * m + k) * bpow radix2 (-8)).
  { rewrite plus_IZR, mult_IZR. change (bpow radix2 (-8)) with (/ 256). field. }
  rewrite E. apply exact; lia.
Qed.

Lemma percent_le p : (1 <= p <= 100)%Z -> B2R (fdiv (of_int p) (of_int 100)) <= IZR p / 100 * (1 + / IZR (2 ^ 53)).
Proof.
  intros Hp. destruct (of_int_ok p) as [E1 F1]; [lia|]. destruct (of_int_ok 100) as [E2 F2]; [lia|].
  assert (P1 : 1 <= IZR p) by (apply IZR_le; lia). assert (P2 : IZR p <= 100) by (apply IZR_le; lia).
  destruct (fdiv_ok (of_int p) (of_int 100)) as [E F]; [exact F1|rewrite E2; lra|rewrite E1, E2|].
  { rewrite Rabs_pos_eq by lra. assert (100 <= IZR (2 ^ 50)) by (apply IZR_le; lia). lra. }
  rewrite E, E1, E2.
  assert (X : Rabs (rnd (IZR p / 100) - IZR p / 100) <= / 2 * bpow radix2 (-53 + 1) * Rabs (IZR p / 100)).
  { rewrite fexp_FLT. apply (relative_error_N_FLT radix2 (-1074) 53); [lia|]. rewrite Rabs_pos_eq by lra.
    apply Rle_trans with (bpow radix2 (-7)); [now apply bpow_le|change (bpow radix2 (-7)) with (/ 128); lra]. }
  rewrite (Rabs_pos_eq (IZR p / 100)) in X by lra. apply Rabs_le_inv in X.
  replace (/ IZR (2 ^ 53)) with (/ 2 * bpow radix2 (-53 + 1)) by (change (bpow radix2 (-53 + 1)) with (/ IZR 4503599627370496); change (2 ^ 53)%Z with 9007199254740992%Z; lra). lra.
Qed.

Lemma input_count size p : (1 <= size <= 2 ^ 42 + 1)%Z -> (1 <= p <= 100)%Z ->
  let input := to_int (fmul (of_int size) (fdiv (of_int p) (of_int 100))) in
  (100 * input <= size * p <= 100 * (input + 1))%Z.
Proof.
  intros Hs Hp. cbv zeta. destruct (percent p Hp) as [Fu Hu]. cbv zeta in Hu. pose proof (percent_le p Hp) as Hu'.
  set (u := fdiv (of_int p) (of_int 100)) in *. destruct (of_int_ok size) as [E1 F1]; [lia|].
  assert (P1 : 1 <= IZR size) by (apply IZR_le; lia). assert (P2 : IZR size <= IZR (2 ^ 43)) by (apply IZR_le; lia).
  assert (Q1 : 1 <= IZR p <= 100) by (split; apply IZR_le; lia).
  change (2 ^ 53)%Z with 9007199254740992%Z in Hu, Hu'. change (2 ^ 43)%Z with 8796093022208%Z in P2.
  assert (H0 : 0 <= B2R u) by (apply Rle_trans with (2 := proj1 Hu); apply Rmult_le_pos; lra).
  destruct (fmul_ok (of_int size) u F1 Fu) as [E F].
  { rewrite E1, Rabs_pos_eq by (apply Rmult_le_pos; lra). apply Rle_trans with (IZR size * 1); [apply Rmult_le_compat_l; lra|].
    change (2 ^ 50)%Z with 1125899906842624%Z. lra. }
  assert (W : IZR size * (IZR p / 100) <= 8796093022208).
  { apply Rle_trans with (IZR size * 1); [apply Rmult_le_compat_l; lra|lra]. }
  assert (W0 : 0 <= IZR size * (IZR p / 100)) by (apply Rmult_le_pos; lra).
  assert (U1 : IZR size * B2R u <= IZR size * (IZR p / 100) + / 1000).
  { apply Rle_trans with (IZR size * (IZR p / 100 * (1 + / 9007199254740992))); [apply Rmult_le_compat_l; lra|].
    rewrite <- Rmult_assoc, Rmult_plus_distr_l, Rmult_1_r. apply Rplus_le_compat_l. lra. }
  assert (U2 : IZR size * (IZR p / 100) - / 1000 <= IZR size * B2R u).
  { apply Rle_trans with (IZR size * (IZR p / 100 * (1 - / 9007199254740992))); [|apply Rmult_le_compat_l; lra].
    rewrite <- Rmult_assoc. rewrite (Rmult_minus_distr_l (IZR size * (IZR p / 100))), Rmult_1_r. lra. }
  rewrite <- E1 in U1, U2. set (w := (size * p)%Z) in *.
  assert (EW : IZR (size) * (IZR p / 100) = IZR w / 100) by (unfold w; rewrite mult_IZR; field).
  rewrite E1 in U1, U2. rewrite EW in U1, U2.
  assert (Hw : (1 <= w <= 100 * (2 ^ 42 + 1))%Z) by (unfold w; nia).
  set (k := (w / 100)%Z). set (j := ((w - 1) / 100)%Z).
  assert (Hk : (100 * k <= w <= 100 * k + 99)%Z) by (unfold k; pose proof (Z.div_mod w 100); pose proof (Z.mod_pos_bound w 100); lia).
  assert (Hj : (100 * j + 1 <= w <= 100 * j + 100)%Z) by (unfold j; pose proof (Z.div_mod (w - 1) 100); pose proof (Z.mod_pos_bound (w - 1) 100); lia).
  assert (L : IZR j <= B2R (fmul (of_int size) u)).
  { rewrite E, E1. rewrite <- (exact_int j) by lia. apply rnd_le.
    assert (X : IZR (100 * j + 1) <= IZR w) by (apply IZR_le; lia). rewrite plus_IZR, mult_IZR in X. lra. }
  assert (M : B2R (fmul (of_int size) u) <= IZR k + 255 / 256).
  { rewrite E, E1. rewrite <- (exact_256 k 255) by lia. apply rnd_le.
    assert (X : IZR w <= IZR (100 * k + 99)) by (apply IZR_le; lia). rewrite plus_IZR, mult_IZR in X. lra. }
  destruct (to_int_ok (fmul (of_int size) u) j k F L) as [[T1 T2] _]; [lra|lia|lia|]. lia.
Qed.

Lemma input_100 size : (1 <= size <= 2 ^ 50)%Z -> to_int (fmul (of_int size) (fdiv (of_int 100) (of_int 100))) = size.
Proof.
  intros Hs. destruct (percent 100) as [Fu _]; [lia|]. destruct (of_int_ok 100) as [E2 F2]; [lia|].
  destruct (fdiv_ok (of_int 100) (of_int 100)) as [E F]; [exact F2|rewrite E2; lra|rewrite E2|].
  { replace (100 / 100) with 1 by lra. rewrite Rabs_R1. apply (IZR_le 1). lia. }
  rewrite E2 in E. replace (100 / 100) with (IZR 1) in E by lra. rewrite (exact_int 1) in E by lia.
  set (u := fdiv (of_int 100) (of_int 100)) in *. destruct (of_int_ok size) as [E1 F1]; [lia|].
  assert (P1 : 1 <= IZR size) by (apply IZR_le; lia). assert (P2 : IZR size <= IZR (2 ^ 50)) by (apply IZR_le; lia).
  destruct (fmul_ok (of_int size) u F1 F) as [E3 F3]; [rewrite E1, E, Rmult_1_r, Rabs_pos_eq; lra|].
  rewrite E1, E, Rmult_1_r, exact_int in E3 by lia.
  destruct (to_int_ok (fmul (of_int size) u) size size F3) as [T _]; rewrite ?E3; [lra|lra|lia|lia|lia].
Qed.

(** Consecutive draws give increasing values. *)
Lemma value_step mn D n r : (0 <= mn)%Z -> (mn + D <= 2 ^ 42)%Z -> (1 <= n)%Z -> (n = D \/ 100 * n < 99 * D)%Z -> (0 <= r < n)%Z ->
  let v r := to_int (fadd (of_int mn) (fmul (of_int r) (fdiv (of_int D) (of_int n)))) in
  (v r < v (r + 1))%Z.
Proof.
  intros Hmn HD Hn Hq Hr. cbv zeta. set (sl := rnd (IZR D / IZR n)).
  assert (B : forall r, (0 <= r <= n)%Z -> let x := fadd (of_int mn) (fmul (of_int r) (fdiv (of_int D) (of_int n))) in
    to_int x = Zfloor (B2R x) /\ Rabs (B2R x - (IZR mn + IZR r * sl)) <= / 256 /\ (n = D -> B2R x = IZR (mn + r))).
  { clear r Hr. intros r Hr. cbv zeta. destruct (value_real mn (mn + D) n r) as (F & [H1 H2] & (E & H3 & H4)); [lia|lia|lia|lia|].
    cbv zeta in F, H1, H2, E. replace (mn + D - mn)%Z with D in F, H1, H2, E, H3, H4 by lia. fold sl in E, H3, H4.
    set (x := fadd (of_int mn) (fmul (of_int r) (fdiv (of_int D) (of_int n)))) in *.
    assert (N0 : 0 <= IZR mn) by (apply IZR_le; lia). assert (N1 : IZR mn + IZR D <= IZR (2 ^ 42)) by (rewrite <- plus_IZR; apply IZR_le; lia).
    assert (N2 : IZR (2 ^ 42) + 1 <= IZR (2 ^ 43)) by (rewrite <- plus_IZR; apply IZR_le; lia).
    split; [|split].
    - destruct (to_int_ok x mn (mn + D) F) as [_ ->]; [exact H1|lra|lia|lia|]. apply Ztrunc_floor. lra.
    - rewrite E. assert (X : Rabs (rnd (IZR r * sl) - IZR r * sl) <= / 512) by (apply error; rewrite Rabs_pos_eq; lra).
      assert (Y : Rabs (rnd (IZR mn + rnd (IZR r * sl)) - (IZR mn + rnd (IZR r * sl))) <= / 512) by (apply error; rewrite Rabs_pos_eq; lra).
      apply Rabs_le_inv in X, Y. apply Rabs_le. lra.
    - intros ->. rewrite E. unfold sl. assert (1 <= IZR D) by (apply IZR_le; lia).
      replace (IZR D / IZR D) with (IZR 1) by (field; lra). rewrite (exact_int 1) by lia. rewrite Rmult_1_r.
      rewrite (exact_int r) by lia. rewrite <- plus_IZR. apply exact_int. lia. }
  destruct (B r) as (E1 & H1 & G1); [lia|]. destruct (B (r + 1)%Z) as (E2 & H2 & G2); [lia|]. rewrite E1, E2. destruct Hq as [Hq|Hq].
  - rewrite G1, G2 by exact Hq. rewrite !Zfloor_IZR. lia.
  - assert (S : 1 + / 128 < sl).
    { assert (NN : 1 <= IZR n) by (apply IZR_le; lia).
      assert (Q : 100 / 99 <= IZR D / IZR n).
      { apply Rmult_le_reg_r with (IZR n); [lra|]. replace (IZR D / IZR n * IZR n) with (IZR D) by (field; lra).
        assert (X : IZR (100 * n) <= IZR (99 * D)) by (apply IZR_le; lia). rewrite !mult_IZR in X. lra. }
      assert (E : 1 + 9 / 1024 = IZR 1033 * bpow radix2 (-10)) by (change (bpow radix2 (-10)) with (/ 1024); lra).
      apply Rlt_le_trans with (1 + 9 / 1024); [lra|]. rewrite E. rewrite <- exact by lia. rewrite <- E. apply rnd_le. lra. }
    rewrite plus_IZR in H2. apply Rabs_le_inv in H1, H2.
    assert (X : B2R (fadd (of_int mn) (fmul (of_int r) (fdiv (of_int D) (of_int n)))) + 1
                < B2R (fadd (of_int mn) (fmul (of_int (r + 1)) (fdiv (of_int D) (of_int n))))).
    { rewrite Rmult_plus_distr_r in H2. lra. }
    apply Z.lt_le_trans with (Zfloor (B2R (fadd (of_int mn) (fmul (of_int r) (fdiv (of_int D) (of_int n))))) + 1)%Z; [lia|].
    rewrite <- (Zfloor_IZR (_ + 1)). apply Zfloor_le. rewrite plus_IZR. eapply Rle_trans; [apply Rplus_le_compat_r, Zfloor_lb|lra].
Qed.
