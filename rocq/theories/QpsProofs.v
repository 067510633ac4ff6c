(** QPS and TPS: bounds on the floating point computations. *)
From Coq Require Import ZArith Reals Psatz.
From Verif Require Import Prelude GapsModel GapsProofs QpsModel.
From Flocq Require Import Core BinarySingleNaN Relative.
#[local] Open Scope R_scope.

Definition ulp1 : R := / 9007199254740992.

Lemma rel x : / 5000000000 <= x -> x * (1 - ulp1) <= rnd x <= x * (1 + ulp1).
Proof.
  intros P. assert (X : Rabs (rnd x - x) <= / 2 * bpow radix2 (-53 + 1) * Rabs x).
  { rewrite fexp_FLT. apply (relative_error_N_FLT radix2 (-1074) 53); [lia|]. rewrite Rabs_pos_eq by lra.
    apply Rle_trans with (bpow radix2 (-33)); [now apply bpow_le|change (bpow radix2 (-33)) with (/ 8589934592); lra]. }
  rewrite (Rabs_pos_eq x) in X by lra. apply Rabs_le_inv in X.
  replace (/ 2 * bpow radix2 (-53 + 1)) with ulp1 in X by (change (bpow radix2 (-53 + 1)) with (/ IZR 4503599627370496); unfold ulp1; lra). lra.
Qed.
Lemma rnd0 : rnd 0 = 0.
Proof. apply (exact_int 0). lia. Qed.

Lemma seconds_ok d : (0 < d <= 2 ^ 62)%Z ->
  let D := IZR d / 1000000000 in
  is_finite (seconds d) = true /\ D * (1 - ulp1) * (1 - ulp1) <= B2R (seconds d) <= D * (1 + ulp1) * (1 + ulp1).
Proof.
  intros H D. unfold seconds. rewrite Z.quot_div_nonneg, Z.rem_mod_nonneg by lia.
  pose proof (Z.div_mod d 1000000000 ltac:(lia)) as E. pose proof (Z.mod_pos_bound d 1000000000 ltac:(lia)) as B.
  set (s := (d / 1000000000)%Z) in *. set (r := (d mod 1000000000)%Z) in *.
  assert (S1 : (0 <= s <= 2 ^ 33)%Z) by lia.
  assert (DE : D = IZR s + IZR r / 1000000000). { unfold D. rewrite E, plus_IZR, mult_IZR. field. }
  assert (RS : 0 <= IZR s <= IZR (2 ^ 33)) by (split; apply IZR_le; lia).
  assert (RR : 0 <= IZR r < 1000000000) by (split; [apply IZR_le|apply IZR_lt]; lia).
  destruct (of_int_ok s) as [E1 F1]; [lia|]. destruct (of_int_ok r) as [E2 F2]; [lia|]. destruct (of_int_ok 1000000000) as [E3 F3]; [lia|].
  change (2 ^ 33)%Z with 8589934592%Z in RS.
  assert (BIG : IZR (2 ^ 50) = 1125899906842624) by (f_equal; reflexivity).
  destruct (fdiv_ok (of_int r) (of_int 1000000000)) as [E4 F4]; [exact F2|rewrite E3; lra|rewrite E2, E3, Rabs_pos_eq by lra; lra|].
  rewrite E2, E3 in E4. set (y := fdiv (of_int r) (of_int 1000000000)) in *.
  assert (Y : IZR r / 1000000000 * (1 - ulp1) <= B2R y <= IZR r / 1000000000 * (1 + ulp1)).
  { rewrite E4. destruct (Z.eq_dec r 0) as [->|NZ].
    - replace (0 / 1000000000) with 0 by lra. rewrite rnd0. lra.
    - apply rel. assert (1 <= IZR r) by (apply IZR_le; lia). lra. }
  assert (U : 0 < ulp1 < / 1000000) by (unfold ulp1; lra).
  assert (Y0 : 0 <= B2R y <= 2) by (split; nra).
  destruct (fadd_ok (of_int s) y F1 F4) as [E5 F5]; [rewrite E1, Rabs_pos_eq by lra; lra|]. split; [exact F5|].
  rewrite E5, E1.
  assert (LB : D * (1 - ulp1) <= IZR s + B2R y) by (rewrite DE; nra).
  assert (UB : IZR s + B2R y <= D * (1 + ulp1)) by (rewrite DE; nra).
  assert (BIGGER : / 5000000000 <= IZR s + B2R y).
  { assert (1 <= IZR d) by (apply IZR_le; lia). unfold D in LB. nra. }
  destruct (rel _ BIGGER) as [A1 A2]. split; nra.
Qed.

Lemma rate_real n d : (0 < d <= 2 ^ 62)%Z -> (Z.of_N n <= 2 ^ 51)%Z -> (Z.of_N n * 1000000000 <= 2 ^ 48 * d)%Z ->
  let X := IZR (Z.of_N n) * 1000000000 / IZR d in
  exists q, rate n (seconds d) = Ztrunc q /\ 0 <= q /\ X * (1 - 4 * ulp1) <= q <= X * (1 + 4 * ulp1).
Proof.
  intros H N1 N2 X. destruct (seconds_ok d H) as [F S]. unfold rate. set (s := seconds d) in *. set (z := Z.of_N n) in *.
  assert (Z0 : (0 <= z)%Z) by (unfold z; lia). assert (U : ulp1 = / 9007199254740992) by reflexivity.
  assert (D1 : 1 <= IZR d) by (apply IZR_le; lia). set (D := IZR d / 1000000000) in *.
  assert (DP : / 1000000000 <= D) by (unfold D; lra).
  assert (SP : / 2000000000 <= B2R s) by nra.
  destruct (of_int_ok z) as [E1 F1]; [lia|]. assert (RZ : 0 <= IZR z) by (apply IZR_le; lia).
  assert (XD : X * D = IZR z) by (unfold X, D; field; lra).
  assert (XB : 0 <= X <= 281474976710656).
  { split; [unfold X; apply Rmult_le_pos; [lra|left; apply Rinv_0_lt_compat; lra]|].
    apply IZR_le in N2. rewrite !mult_IZR in N2. change (IZR (2 ^ 48)) with 281474976710656 in N2. unfold X.
    apply (Rmult_le_reg_r (IZR d)); [lra|]. unfold Rdiv. rewrite Rmult_assoc, Rinv_l by lra. lra. }
  set (v := IZR z / B2R s).
  assert (VS : v * B2R s = IZR z) by (unfold v; field; lra).
  assert (V0 : 0 <= v) by (unfold v; apply Rmult_le_pos; [lra|left; apply Rinv_0_lt_compat; lra]).
  assert (DE : 0 < D) by lra.
  assert (VU : v * ((1 - ulp1) * (1 - ulp1)) <= X).
  { apply (Rmult_le_reg_r D); [lra|]. rewrite XD, <- VS. replace (v * ((1 - ulp1) * (1 - ulp1)) * D) with (v * (D * (1 - ulp1) * (1 - ulp1))) by ring.
    apply Rmult_le_compat_l; lra. }
  assert (VL : X <= v * ((1 + ulp1) * (1 + ulp1))).
  { apply (Rmult_le_reg_r D); [lra|]. rewrite XD, <- VS. replace (v * ((1 + ulp1) * (1 + ulp1)) * D) with (v * (D * (1 + ulp1) * (1 + ulp1))) by ring.
    apply Rmult_le_compat_l; lra. }
  assert (VB : v <= 562949953421312) by (rewrite U in VU; lra).
  assert (BIG : IZR (2 ^ 50) = 1125899906842624) by (f_equal; reflexivity).
  destruct (fdiv_ok (of_int z) s F1) as [E2 F2]; [lra|rewrite E1; fold v; rewrite Rabs_pos_eq by lra; lra|]. rewrite E1 in E2. fold v in E2.
  assert (Q : v * (1 - ulp1) <= B2R (fdiv (of_int z) s) <= v * (1 + ulp1)).
  { rewrite E2. destruct (Z.eq_dec z 0) as [ZZ|NZ].
    - assert (V : v = 0) by (unfold v; rewrite ZZ; unfold Rdiv; apply Rmult_0_l). rewrite V, rnd0. lra.
    - apply rel. assert (1 <= IZR z) by (apply IZR_le; lia). 
      assert (SU : B2R s <= 5000000000). { assert (IZR d <= IZR (2 ^ 62)) by (apply IZR_le; lia). change (IZR (2 ^ 62)) with 4611686018427387904 in *. unfold D in S. rewrite U in S. lra. }
      apply (Rmult_le_reg_r (B2R s)); [lra|]. rewrite VS. apply Rle_trans with 1; lra. }
  set (q := B2R (fdiv (of_int z) s)) in *.
  exists q. assert (Q0 : 0 <= q) by (rewrite U in Q; lra).
  split; [|split; [exact Q0|rewrite U in *; lra]].
  apply (to_int_ok _ 0 (2 ^ 50)); [exact F2|exact Q0| |lia|lia]. fold q. rewrite BIG. rewrite U in Q. lra.
Qed.

(** As integers. *)
Lemma rate_bounds n d : (0 < d <= 2 ^ 62)%Z -> (Z.of_N n <= 2 ^ 51)%Z -> (Z.of_N n * 1000000000 <= 2 ^ 48 * d)%Z ->
  let q := rate n (seconds d) in let x := (Z.of_N n * 1000000000)%Z in
  (0 <= q)%Z /\ (q * d * 2 ^ 51 <= x * (2 ^ 51 + 1))%Z /\ (x * (2 ^ 51 - 1) < (q + 1) * d * 2 ^ 51)%Z.
Proof.
  intros H N1 N2. destruct (rate_real n d H N1 N2) as (v & E & V0 & V1 & V2). cbv zeta. rewrite E. rewrite Ztrunc_floor by exact V0.
  assert (D1 : 1 <= IZR d) by (apply IZR_le; lia).
  pose proof (Zfloor_lb v) as L. pose proof (Zfloor_ub v) as R1. set (q := Zfloor v) in *. set (z := Z.of_N n) in *.
  set (X := IZR z * 1000000000 / IZR d) in *. assert (XD : X * IZR d = IZR z * 1000000000) by (unfold X; field; lra).
  unfold ulp1 in *. split; [apply Zfloor_lub; exact V0|]. split.
  - apply le_IZR. rewrite !mult_IZR. change (IZR (2 ^ 51)) with 2251799813685248. change (IZR (2 ^ 51 + 1)) with 2251799813685249. rewrite <- XD. nra.
  - apply lt_IZR. rewrite !mult_IZR, plus_IZR. change (IZR (2 ^ 51)) with 2251799813685248. change (IZR (2 ^ 51 - 1)) with 2251799813685247. rewrite <- XD. nra.
Qed.

(** Whole seconds. *)
Lemma seconds_whole s : (0 < s <= 2 ^ 32)%Z -> B2R (seconds (s * 1000000000)) = IZR s /\ is_finite (seconds (s * 1000000000)) = true.
Proof.
  intros H. unfold seconds. rewrite Z.quot_mul, Z.rem_mul by lia.
  destruct (of_int_ok s) as [E1 F1]; [lia|]. destruct (of_int_ok 0) as [E2 F2]; [lia|]. destruct (of_int_ok 1000000000) as [E3 F3]; [lia|].
  destruct (fdiv_ok (of_int 0) (of_int 1000000000)) as [E4 F4]; [exact F2|rewrite E3; lra|rewrite E2, E3; unfold Rdiv; rewrite Rmult_0_l, Rabs_R0; now apply IZR_le|].
  rewrite E2, E3 in E4. replace (0 / 1000000000) with 0 in E4 by lra. rewrite rnd0 in E4.
  destruct (fadd_ok (of_int s) (fdiv (of_int 0) (of_int 1000000000)) F1 F4) as [E5 F5].
  { rewrite E1, E4, Rplus_0_r, <- abs_IZR. apply IZR_le. lia. }
  split; [|exact F5]. rewrite E5, E1, E4, Rplus_0_r. apply exact_int. lia.
Qed.
Lemma rate_whole n s : (0 < s <= 2 ^ 32)%Z -> (Z.of_N n <= 2 ^ 50)%Z -> rate n (seconds (s * 1000000000)) = (Z.of_N n / s)%Z.
Proof.
  intros H NB. destruct (seconds_whole s H) as [ES FS]. unfold rate. set (f := seconds _) in *. set (z := Z.of_N n) in *.
  assert (Z0 : (0 <= z)%Z) by (unfold z; lia). destruct (of_int_ok z) as [E1 F1]; [lia|].
  assert (S1 : 1 <= IZR s) by (apply IZR_le; lia). assert (RZ : 0 <= IZR z <= 1125899906842624) by (split; apply IZR_le; lia).
  set (v := IZR z / IZR s). assert (VS : v * IZR s = IZR z) by (unfold v; field; lra).
  assert (V0 : 0 <= v) by (unfold v; apply Rmult_le_pos; [lra|left; apply Rinv_0_lt_compat; lra]).
  assert (VB : v <= 1125899906842624) by nra.
  assert (BIG : IZR (2 ^ 50) = 1125899906842624) by (f_equal; reflexivity).
  destruct (fdiv_ok (of_int z) f F1) as [E2 F2]; [rewrite ES; lra|rewrite E1, ES; fold v; rewrite Rabs_pos_eq by lra; lra|]. rewrite E1, ES in E2. fold v in E2.
  pose proof (Z.div_mod z s ltac:(lia)) as DM. pose proof (Z.mod_pos_bound z s ltac:(lia)) as MB. set (k := (z / s)%Z) in *.
  assert (K0 : (0 <= k <= 2 ^ 50)%Z) by (split; [apply Z.div_pos; lia|]; nia).
  assert (KL : IZR k <= v). { apply (Rmult_le_reg_r (IZR s)); [lra|]. rewrite VS, <- mult_IZR. apply IZR_le. lia. }
  assert (KU : v + / IZR s <= IZR (k + 1)).
  { apply (Rmult_le_reg_r (IZR s)); [lra|]. rewrite Rmult_plus_distr_r, VS, Rinv_l by lra. rewrite <- mult_IZR, <- (plus_IZR z 1). apply IZR_le. lia. }
  assert (LO : IZR k <= B2R (fdiv (of_int z) f)). { rewrite E2, <- (exact_int k) by lia. now apply rnd_le. }
  assert (HI : B2R (fdiv (of_int z) f) < IZR k + 1).
  { rewrite E2. rewrite plus_IZR in KU. destruct (Z.eq_dec z 0) as [ZZ|NZ].
    - assert (V : v = 0) by (unfold v; rewrite ZZ; unfold Rdiv; apply Rmult_0_l). rewrite V, rnd0. assert (0 <= IZR k) by (apply IZR_le; lia). lra.
    - assert (Z1 : 1 <= IZR z) by (apply IZR_le; lia). assert (SU : IZR s <= 4294967296) by (apply IZR_le; lia).
      assert (VLB : / 5000000000 <= v).
      { apply (Rmult_le_reg_r (IZR s)); [lra|]. rewrite VS. lra. }
      destruct (rel v VLB) as [_ R]. apply Rle_lt_trans with (1 := R). apply Rlt_le_trans with (2 := KU).
      enough (v * ulp1 < / IZR s) by lra. apply (Rmult_lt_reg_r (IZR s)); [lra|]. rewrite Rinv_l by lra.
      replace (v * ulp1 * IZR s) with (v * IZR s * ulp1) by ring. rewrite VS. unfold ulp1. lra. }
  destruct (to_int_ok _ k k F2 LO HI) as [T _]; [lia|lia|]. lia.
Qed.
