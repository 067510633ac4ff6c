(** Proofs about the data limits. *)
From Verif Require Import Prelude ListAux GenModel GenProofs LimitModel LimitSpec.
#[local] Open Scope string_scope.
#[local] Open Scope list_scope.
#[local] Open Scope Z_scope.

(* ------------------------------------------------------------------------------------ *)
(** * Sums over clients *)

Fixpoint sumz (f : nat -> Z) (k : nat) : Z :=
  match k with O => 0 | S k' => sumz f k' + f k' end.

Lemma sumz_ext f g k : (forall x, (x < k)%nat -> f x = g x) -> sumz f k = sumz g k.
Proof. induction k as [|k IH]; intros H; cbn; auto. rewrite (H k), IH by auto. reflexivity. Qed.

Lemma sumz_upd {A} (g : A -> Z) (ph : nat -> A) t p k : (t < k)%nat ->
  sumz (fun x => g (natupd ph t p x)) k = sumz (fun x => g (ph x)) k - g (ph t) + g p.
Proof.
  induction k as [|k IH]; intros L; [lia|]. cbn.
  destruct (Nat.eq_dec t k) as [->|NE].
  - rewrite natupd_same. rewrite (sumz_ext _ (fun x => g (ph x))); [lia|].
    intros x X. rewrite natupd_other by lia. reflexivity.
  - rewrite IH by lia. rewrite natupd_other by lia. lia.
Qed.

Lemma sumz_le f g k : (forall x, (x < k)%nat -> f x <= g x) -> sumz f k <= sumz g k.
Proof. induction k as [|k IH]; intros H; cbn; [lia|]. pose proof (H k). pose proof IH. specialize (IH ltac:(auto)). lia. Qed.

Lemma sumz_const c k : sumz (fun _ => c) k = Z.of_nat k * c.
Proof. induction k; cbn; lia. Qed.

Lemma sumz_bound f r k : (forall x, (x < k)%nat -> f x <= r) -> sumz f k <= Z.of_nat k * r.
Proof. intros H. rewrite <- sumz_const. now apply sumz_le. Qed.
Lemma sumz_nonneg f k : (forall x, (x < k)%nat -> 0 <= f x) -> 0 <= sumz f k.
Proof. intros H. replace 0 with (sumz (fun _ => 0) k) by (rewrite sumz_const; lia). now apply sumz_le. Qed.

(** a bound for all but one *)
Lemma sumz_bound_but f r k t : (t < k)%nat -> (forall x, (x < k)%nat -> f x <= r) ->
  sumz f k <= (Z.of_nat k - 1) * r + f t.
Proof.
  induction k as [|k IH]; intros L H; [lia|]. cbn. destruct (Nat.eq_dec t k) as [->|NE].
  - pose proof (sumz_bound f r k ltac:(auto)). lia.
  - specialize (IH ltac:(lia) ltac:(auto)). pose proof (H k ltac:(lia)). lia.
Qed.

Lemma set_nth_same {A} (l : list A) n x l' : set_nth l n x = Some l' -> nth_error l' n = Some x.
Proof.
  revert n l'. induction l as [|a l IH]; intros [|n] l'; cbn; try discriminate.
  - intros E. inv E. reflexivity.
  - destruct (set_nth l n x) eqn:E; [|discriminate]. intros X. inv X. cbn. eauto.
Qed.
Lemma set_nth_diff {A} (l : list A) n x l' m : set_nth l n x = Some l' -> m <> n -> nth_error l' m = nth_error l m.
Proof.
  revert n l' m. induction l as [|a l IH]; intros [|n] l' [|m]; cbn; try discriminate; try congruence.
  - intros E. inv E. reflexivity.
  - destruct (set_nth l n x) eqn:E; [|discriminate]. intros X. inv X. reflexivity.
  - destruct (set_nth l n x) eqn:E; [|discriminate]. intros X. inv X. cbn. intros. eauto.
Qed.

(* ------------------------------------------------------------------------------------ *)
(** * Rows *)

Section RowsInv.
  Variables (k : nat) (r N o : Z) (i : nat) (ls0 : list leaf).
  Hypotheses (R0 : 0 <= r) (O0 : 0 <= o < 2^63) (B : N - 1 + Z.of_nat k * r < 2^63)
    (I0 : nth_error ls0 i = Some (LRows (Rows N o))).

  (** executed but not counted in leaf [i] *)
  Definition inflight (p : lphase) : Z :=
    match p with LCount w j => if (j <=? i)%nat then w else 0 | _ => 0 end.
  (** and those that passed leaf [i]'s check *)
  Definition pend (p : lphase) : Z :=
    match p with
    | LCheck j => if (i <? j)%nat then r else 0
    | LCount w j => if (j <=? i)%nat then w else 0
    | _ => 0
    end.
  Definition lok (p : lphase) : Prop := match p with LCount w _ => 0 <= w <= r | _ => True end.

  Definition rinv (s : lstate) : Prop :=
    exists n, nth_error (l_leaves s) i = Some (LRows (Rows N n)) /\ 0 <= n /\
      n + sumz (fun t => inflight (l_ph s t)) k = o + l_written s /\
      n + sumz (fun t => pend (l_ph s t)) k <= Z.max o (N - 1 + Z.of_nat k * r) /\
      (forall t, lok (l_ph s t)) /\ length (l_leaves s) = length ls0.

  Lemma pend_bound p : lok p -> 0 <= pend p <= r.
  Proof. destruct p as [|j|w j|]; cbn; intros; try lia; destruct (_ : bool); lia. Qed.
  Lemma inflight_pend p : lok p -> inflight p <= pend p.
  Proof. destruct p as [|j|w j|]; cbn; intros; try lia; destruct (_ : bool); lia. Qed.

  Lemma rinv_init : rinv (linit ls0).
  Proof.
    exists o. cbn. split; auto. split; [lia|]. rewrite !sumz_const. split; [lia|]. split; [lia|]. split; auto.
  Qed.

  Lemma lok_upd ph t p : (forall x, lok (ph x)) -> lok p -> forall x, lok (natupd ph t p x).
  Proof. intros H P x. unfold natupd. destruct (Nat.eqb t x); auto. Qed.

  (** the parts of the invariant that depend on the phase change only *)
  Lemma rinv_phase s t p ls n : (t < k)%nat -> rinv s ->
    nth_error (l_leaves s) i = Some (LRows (Rows N n)) -> nth_error ls i = Some (LRows (Rows N n)) ->
    length ls = length (l_leaves s) -> lok p ->
    inflight p = inflight (l_ph s t) -> pend p <= pend (l_ph s t) ->
    rinv (LState ls (natupd (l_ph s) t p) (l_written s)).
  Proof.
    intros T (n' & H1 & H2 & H3 & H4 & H5 & H6) E1 E2 L P F D.
    assert (n' = n) by congruence. subst n'.
    exists n. cbn. split; auto. split; auto. rewrite !sumz_upd by auto.
    split; [lia|]. split; [lia|]. split; [now apply lok_upd|congruence].
  Qed.

  Lemma rinv_step s t a s' : (t < k)%nat -> rinv s -> (forall w, a = LExec (Some w) -> 0 <= w <= r) ->
    lstep s t a = Some s' -> rinv s'.
  Proof.
    intros T I W ST. pose proof I as (n & H1 & H2 & H3 & H4 & H5 & H6). pose proof (H5 t) as PT.
    unfold lstep in ST. destruct (l_ph s t) as [|j|w j|] eqn:EP; destruct a as [|c|res| |]; try discriminate.
    - inv ST. apply (rinv_phase s t _ _ n); auto; try rewrite EP; cbn; try lia; destruct (i <? 0)%nat eqn:X; lia.
    - inv ST. apply (rinv_phase s t _ _ n); auto; try rewrite EP; cbn; lia.
    - destruct (nth_error (l_leaves s) j) as [l|] eqn:EJ; [|discriminate].
      destruct (leaf_more c l) as [l' b] eqn:EM. destruct (set_nth (l_leaves s) j l') as [ls|] eqn:ES; [|discriminate].
      inv ST. pose proof (set_nth_length _ _ _ _ ES) as LEN.
      assert (NI : nth_error ls i = Some (LRows (Rows N n))).
      { destruct (Nat.eq_dec i j) as [->|NE].
        - rewrite (set_nth_same _ _ _ _ ES). rewrite H1 in EJ. inv EJ. cbn in EM. congruence.
        - rewrite (set_nth_diff _ _ _ _ i ES) by auto. exact H1. }
      destruct (Nat.eq_dec i j) as [->|NE].
      + rewrite H1 in EJ. inv EJ. cbn in EM. inv EM. unfold rows_more. cbn [r_n r_max].
        destruct (Z.ltb_spec n N) as [LT|GE].
        * exists n. cbn [l_leaves l_ph l_written]. split; auto. split; auto.
          rewrite !sumz_upd by auto. rewrite EP. cbn [inflight pend].
          replace (i <? i)%nat with false by (symmetry; apply Nat.ltb_ge; lia).
          replace (i <? S i)%nat with true by (symmetry; apply Nat.ltb_lt; lia).
          split; [lia|]. split; [|split; [apply lok_upd; cbn; auto|congruence]].
          pose proof (sumz_bound_but (fun t => pend (l_ph s t)) r k t T (fun x _ => proj2 (pend_bound _ (H5 x)))) as SB.
          cbn beta in SB. rewrite EP in SB. cbn [pend] in SB.
          replace (i <? i)%nat with false in SB by (symmetry; apply Nat.ltb_ge; lia). lia.
        * apply (rinv_phase s t _ _ n); auto; try rewrite EP; cbn; auto. destruct (i <? i)%nat; lia.
      + apply (rinv_phase s t _ _ n); auto; try rewrite EP; [destruct b; cbn; auto..|].
        destruct b; cbn; [|destruct (i <? j)%nat; lia].
        destruct (Nat.ltb_spec i (S j)); destruct (Nat.ltb_spec i j); lia.
    - destruct (Nat.eqb_spec j (length (l_leaves s))) as [->|]; [|discriminate].
      assert (IL : (i < length (l_leaves s))%nat) by (apply nth_error_Some; congruence).
      destruct res as [w|].
      + specialize (W w eq_refl). inv ST. exists n. cbn [l_leaves l_ph l_written]. split; auto. split; auto.
        rewrite !sumz_upd by auto. rewrite EP. cbn [inflight pend].
        replace (0 <=? i)%nat with true by (symmetry; apply Nat.leb_le; lia).
        replace (i <? length (l_leaves s))%nat with true by (symmetry; apply Nat.ltb_lt; lia).
        split; [lia|]. split; [lia|]. split; auto. apply lok_upd; auto.
      + inv ST. apply (rinv_phase s t _ _ n); auto; try rewrite EP; cbn; try lia. destruct (i <? _)%nat; lia.
    - cbn in PT. destruct (nth_error (l_leaves s) j) as [l|] eqn:EJ.
      + destruct (set_nth (l_leaves s) j (leaf_affected w l)) as [ls|] eqn:ES; [|discriminate]. inv ST.
        pose proof (set_nth_length _ _ _ _ ES) as LEN.
        destruct (Nat.eq_dec i j) as [->|NE].
        * rewrite H1 in EJ. inv EJ. cbn in ES.
          assert (NN : i64 (n + w) = n + w).
          { apply i64_id. unfold in64.
            pose proof (sumz_bound_but (fun t => - pend (l_ph s t)) 0 k t T
              (fun x _ => ltac:(pose proof (pend_bound _ (H5 x)); lia))) as SB. cbn beta in SB.
            assert (NEG : forall k, sumz (fun t => - pend (l_ph s t)) k = - sumz (fun t => pend (l_ph s t)) k)
              by (induction k0; cbn; lia).
            rewrite NEG, EP in SB. cbn [pend] in SB.
            replace (i <=? i)%nat with true in SB by (symmetry; apply Nat.leb_le; lia). lia. }
          exists (n + w). cbn [l_leaves l_ph l_written]. split.
          { rewrite (set_nth_same _ _ _ _ ES). unfold rows_affected. cbn [r_max r_n]. now rewrite NN. }
          split; [lia|]. rewrite !sumz_upd by auto. rewrite EP. cbn [inflight pend].
          replace (S i <=? i)%nat with false by (symmetry; apply Nat.leb_gt; lia).
          replace (i <=? i)%nat with true by (symmetry; apply Nat.leb_le; lia).
          split; [lia|]. split; [lia|]. split; [apply lok_upd; auto|congruence].
        * assert (NI : nth_error ls i = Some (LRows (Rows N n))) by (rewrite (set_nth_diff _ _ _ _ i ES) by auto; exact H1).
          apply (rinv_phase s t _ _ n); auto; try rewrite EP; cbn;
            destruct (Nat.leb_spec (S j) i); destruct (Nat.leb_spec j i); lia.
      + inv ST. apply (rinv_phase s t _ _ n); auto; try rewrite EP; cbn; auto.
        * apply nth_error_None in EJ. assert ((i < length (l_leaves s))%nat) by (apply nth_error_Some; congruence).
          destruct (Nat.leb_spec j i); lia.
        * destruct (j <=? i)%nat; lia.
  Qed.

  Lemma rinv_run s0 tr s : rinv s0 -> lrun k r s0 tr s -> rinv s.
  Proof. intros I H. induction H; auto. eapply rinv_step; eauto. Qed.

  Lemma rows_bound tr s : lrun k r (linit ls0) tr s ->
    o + l_written s <= Z.max o (N - 1 + Z.of_nat k * r).
  Proof.
    intros H. destruct (rinv_run _ _ _ rinv_init H) as (n & H1 & H2 & H3 & H4 & H5 & H6).
    pose proof (sumz_le (fun t => inflight (l_ph s t)) (fun t => pend (l_ph s t)) k (fun x _ => inflight_pend _ (H5 x))).
    lia.
  Qed.

  (** the limit is reached and client [t] has not passed it *)
  Definition blocked (t : nat) (s : lstate) : Prop :=
    (exists n, nth_error (l_leaves s) i = Some (LRows (Rows N n)) /\ N <= n) /\
    forall j, l_ph s t = LCheck j -> (j <= i)%nat.

  Lemma blocked_step t s t' a s' : (t' < k)%nat -> rinv s -> (forall w, a = LExec (Some w) -> 0 <= w <= r) ->
    lstep s t' a = Some s' -> blocked t s -> blocked t s' /\ ~ executes t (t', a).
  Proof.
    intros T I W ST [(n & E & GE) PH]. pose proof (rinv_step _ _ _ _ T I W ST) as I'.
    destruct I as (n0 & H1 & H2 & H3 & H4 & H5 & H6). assert (n0 = n) by congruence. subst n0.
    assert (IL : (i < length (l_leaves s))%nat) by (apply nth_error_Some; congruence).
    pose proof (H5 t') as PT.
    split.
    - unfold lstep in ST. destruct (l_ph s t') as [|j|w j|] eqn:EP; destruct a as [|c|res| |]; try discriminate.
      + inv ST. split; [cbn; eauto|]. intros j. cbn. destruct (Nat.eq_dec t' t) as [->|]; [rewrite natupd_same|rewrite natupd_other by auto; auto].
        intros X. inv X. lia.
      + inv ST. split; [cbn; eauto|]. intros j. cbn. destruct (Nat.eq_dec t' t) as [->|]; [rewrite natupd_same; discriminate|rewrite natupd_other by auto; auto].
      + destruct (nth_error (l_leaves s) j) as [l|] eqn:EJ; [|discriminate].
        destruct (leaf_more c l) as [l' b] eqn:EM. destruct (set_nth (l_leaves s) j l') as [ls|] eqn:ES; [|discriminate].
        inv ST. split.
        * cbn. exists n. split; auto. destruct (Nat.eq_dec i j) as [->|NE].
          -- rewrite (set_nth_same _ _ _ _ ES). rewrite E in EJ. inv EJ. cbn in EM. congruence.
          -- rewrite (set_nth_diff _ _ _ _ i ES) by auto. exact E.
        * intros j'. cbn. destruct (Nat.eq_dec t' t) as [->|]; [rewrite natupd_same|rewrite natupd_other by auto; auto].
          specialize (PH _ EP). destruct b; [|discriminate]. intros X. inv X.
          destruct (Nat.eq_dec i j) as [->|NE]; [|lia]. rewrite E in EJ. inv EJ. cbn in EM.
          injection EM as _ EM. unfold rows_more in EM. cbn in EM. apply Z.ltb_lt in EM. lia.
      + destruct (Nat.eqb j (length (l_leaves s))); [|discriminate].
        destruct res as [w|]; inv ST; (split; [cbn; eauto|]); intros j'; cbn;
          (destruct (Nat.eq_dec t' t) as [->|]; [rewrite natupd_same; discriminate|rewrite natupd_other by auto; auto]).
      + destruct (nth_error (l_leaves s) j) as [l|] eqn:EJ.
        * destruct (set_nth (l_leaves s) j (leaf_affected w l)) as [ls|] eqn:ES; [|discriminate]. inv ST.
          split.
          -- destruct I' as (n' & N1 & N2 & N3 & N4 & N5 & N6). cbn [l_leaves] in *. exists n'. split; auto.
             destruct (Nat.eq_dec i j) as [->|NE].
             ++ rewrite (set_nth_same _ _ _ _ ES) in N1. rewrite E in EJ. inv EJ. cbn in N1. injection N1 as N1.
                cbn in PT. unfold rows_affected in N1. cbn in N1. 
                rewrite i64_id in N1; [lia|]. unfold in64. 
                pose proof (sumz_bound_but (fun t => - pend (l_ph s t)) 0 k t' T
                  (fun x _ => ltac:(pose proof (pend_bound _ (H5 x)); lia))) as SB. cbn beta in SB.
                assert (NEG : forall k, sumz (fun t => - pend (l_ph s t)) k = - sumz (fun t => pend (l_ph s t)) k)
                  by (induction k0; cbn; lia).
                rewrite NEG, EP in SB. cbn [pend] in SB.
                replace (i <=? i)%nat with true in SB by (symmetry; apply Nat.leb_le; lia). lia.
             ++ rewrite (set_nth_diff _ _ _ _ i ES) in N1 by auto. assert (n' = n) by congruence. lia.
          -- intros j'. cbn. destruct (Nat.eq_dec t' t) as [->|]; [rewrite natupd_same; discriminate|rewrite natupd_other by auto; auto].
        * inv ST. split; [cbn; eauto|]. intros j'. cbn.
          destruct (Nat.eq_dec t' t) as [->|]; [rewrite natupd_same; discriminate|rewrite natupd_other by auto; auto].
    - intros (X & res & Y). cbn in X, Y. subst t' a. unfold lstep in ST.
      destruct (l_ph s t) as [|j|w j|] eqn:EP; try discriminate. specialize (PH _ eq_refl).
      destruct (Nat.eqb_spec j (length (l_leaves s))); [lia|discriminate].
  Qed.

  Lemma blocked_run t s tr s' : rinv s -> blocked t s -> lrun k r s tr s' ->
    (rinv s' /\ blocked t s') /\ Forall (fun e => ~ executes t e) tr.
  Proof.
    intros I BL H. induction H as [|tr s1 t' a s2 H IH T W ST]; [auto|].
    destruct IH as [[I1 B1] F]. destruct (blocked_step _ _ _ _ _ T I1 W ST B1) as [B2 E].
    split; [split; auto; eapply rinv_step; eauto|]. apply Forall_app. auto.
  Qed.
End RowsInv.

(* ------------------------------------------------------------------------------------ *)
(** * Or *)

Lemma fold_or_some ms d : exists d', fold_left (fun l m => data_or l (mod_data m)) ms (Some d) = Some d'.
Proof.
  revert d. induction ms as [|m ms IH]; intros d; cbn; eauto.
  destruct m; cbn; apply IH.
Qed.

Lemma mod_data_leaf m : mod_fits m -> exists d, mod_data m = Some d /\ leaves_of_data d = Some [mod_leaf m].
Proof.
  destruct m as [max off|tbl max|db max]; cbn; intros F; eexists; (split; [reflexivity|]); cbn; auto.
  unfold new_rows, i64_of. rewrite !i64_id by (unfold in64; lia).
  destruct (Z.eqb_spec (Z.of_N max) 0); [lia|]. reflexivity.
Qed.

Lemma fold_or_leaves ms : forall d l d', leaves_of_data d = Some l -> Forall mod_fits ms ->
  fold_left (fun l m => data_or l (mod_data m)) ms (Some d) = Some d' ->
  leaves_of_data d' = Some (l ++ map mod_leaf ms).
Proof.
  induction ms as [|m ms IH]; intros d l d' L F H; cbn in H.
  - inv H. cbn. now rewrite app_nil_r.
  - inv F. destruct (mod_data_leaf m) as (dm & E1 & E2); auto. rewrite E1 in H. cbn in H.
    assert (X : leaves_of_data (DOr d dm) = Some (l ++ [mod_leaf m])) by (cbn; rewrite L, E2; reflexivity).
    rewrite (IH _ _ _ X H3 H). cbn. now rewrite <- app_assoc.
Qed.

Lemma stmt_limit_leaves ms d : stmt_limit ms = Some d -> Forall mod_fits ms -> leaves_of_data d = Some (map mod_leaf ms).
Proof.
  unfold stmt_limit. destruct ms as [|m ms]; cbn; [discriminate|]. intros H F. inv F.
  destruct (mod_data_leaf m) as (dm & E1 & E2); auto. rewrite E1 in H. cbn in H.
  now rewrite (fold_or_leaves _ _ _ _ E2 H3 H).
Qed.

Lemma check_leaves_app c l1 l2 :
  check_leaves c (l1 ++ l2) =
    let '(l1', b1) := check_leaves c l1 in
    if b1 then let '(l2', b2) := check_leaves c l2 in (l1' ++ l2', b2) else (l1' ++ l2, false).
Proof.
  induction l1 as [|l l1 IH]; cbn.
  - destruct (check_leaves c l2); reflexivity.
  - destruct (leaf_more c l) as [l' b]. destruct b; [|reflexivity]. rewrite IH.
    destruct (check_leaves c l1) as [l1' b1]. destruct b1; [|reflexivity].
    destruct (check_leaves c l2); reflexivity.
Qed.

Lemma more_leaves c d : forall ls, leaves_of_data d = Some ls ->
  exists d', more c d = Some (d', snd (check_leaves c ls)) /\ leaves_of_data d' = Some (fst (check_leaves c ls)).
Proof.
  induction d as [[r|]|z|a IHa b IHb]; intros ls H; cbn in H.
  - inv H. exists (DRows (Some r)). cbn. destruct (rows_more r); split; reflexivity.
  - discriminate.
  - inv H. cbn. destruct (size_more c z) as [z' x]. eexists. split; [destruct x; reflexivity|]. destruct x; reflexivity.
  - destruct (leaves_of_data a) as [la|]; [|discriminate]. destruct (leaves_of_data b) as [lb|] eqn:Eb; [|discriminate]. inv H.
    destruct (IHa _ eq_refl) as (a' & A1 & A2). destruct (IHb _ eq_refl) as (b' & B1 & B2).
    rewrite check_leaves_app. cbn [more]. rewrite A1. destruct (check_leaves c la) as [la' x]. cbn in *. destruct x.
    + rewrite B1. destruct (check_leaves c lb) as [lb' y]. cbn in *. eexists. split; [reflexivity|]. cbn. now rewrite A2, B2.
    + eexists. split; [reflexivity|]. cbn. now rewrite A2, Eb.
Qed.

Lemma affected_leaves n d : forall ls, leaves_of_data d = Some ls ->
  exists d', affected n d = Some d' /\ leaves_of_data d' = Some (map (leaf_affected n) ls).
Proof.
  induction d as [[r|]|z|a IHa b IHb]; intros ls H; cbn in H.
  - inv H. eexists. split; reflexivity.
  - discriminate.
  - inv H. eexists. split; reflexivity.
  - destruct (leaves_of_data a) as [la|]; [|discriminate]. destruct (leaves_of_data b) as [lb|] eqn:Eb; [|discriminate]. inv H.
    destruct (IHa _ eq_refl) as (a' & A1 & A2). destruct (IHb _ eq_refl) as (b' & B1 & B2).
    cbn [affected]. rewrite A1, B1. eexists. split; [reflexivity|]. cbn. now rewrite A2, B2, map_app.
Qed.

Lemma check_leaves_true c ls : snd (check_leaves c ls) = true <-> Forall (fun l => snd (leaf_more c l) = true) ls.
Proof.
  induction ls as [|l ls IH]; cbn; [intuition|]. destruct (leaf_more c l) as [l' b] eqn:E.
  destruct b.
  - destruct (check_leaves c ls) as [ls' b2]. cbn in *. rewrite IH. split; intros H.
    + constructor; auto. now rewrite E.
    + now inv H.
  - cbn. split; [discriminate|]. intros H. inv H. now rewrite E in H2.
Qed.

(** a nil pointer anywhere never lets a statement run *)
Fixpoint has_nil (d : data) : bool :=
  match d with DRows None => true | DRows (Some _) => false | DSize _ => false | DOr a b => has_nil a || has_nil b end.
Lemma has_nil_more c d : has_nil d = true -> forall d', more c d <> Some (d', true).
Proof.
  induction d as [[r|]|z|a IHa b IHb]; cbn; intros H d'; try discriminate.
  destruct (has_nil a) eqn:Ea.
  - destruct (more c a) as [[a' x]|]; [|discriminate]. destruct x; [|discriminate]. exfalso. eapply IHa; eauto.
  - cbn in H. destruct (more c a) as [[a' x]|]; [|discriminate]. destruct x; [|discriminate].
    destruct (more c b) as [[b' y]|]; [|discriminate]. intros X. inv X. eapply IHb; eauto.
Qed.
Lemma fold_has_nil ms : forall l, (exists off, In (ModRows 0 off) ms) \/ (exists d, l = Some d /\ has_nil d = true) ->
  exists d, fold_left (fun l m => data_or l (mod_data m)) ms l = Some d /\ has_nil d = true.
Proof.
  induction ms as [|m ms IH]; intros l H; cbn.
  - destruct H as [[? []]|]; auto.
  - apply IH. destruct H as [[off [->|H]]|(d & -> & N)]; [|eauto|].
    + right. cbn. destruct l; cbn; eexists; (split; [reflexivity|]); cbn; auto. apply orb_true_r.
    + right. destruct m; cbn; eexists; (split; [reflexivity|]); cbn; now rewrite N.
Qed.

(* ------------------------------------------------------------------------------------ *)
(** * Size *)

#[local] Open Scope N_scope.

Section TableSize.
  Variables (max : N) (db tbl : string).
  Hypothesis TN : tbl <> "".
  Let m := z_m (new_size max "" tbl).

  Lemma m_cases : m = 3 \/ m = 5 \/ m = 1000.
  Proof. unfold m, new_size. cbn [z_m]. destruct (107374182400 <=? max); destruct (max <=? 1073741824); auto. Qed.

  Inductive zstate : size -> Prop :=
    | ZFresh n : zstate (Size max "" tbl "" "" n m)
    | ZReady n : zstate (Size max db tbl (table_query db tbl) ("ANALYZE TABLE " ++ tbl)%string n m)
    | ZBroken n : zstate (Size max "" tbl query_prefix "" n m).

  (** this call's connection is in the right database *)
  Definition in_db (c : conn) : Prop := forall d, q_database c = Some d -> d = db.

  (** one call *)
  Definition next_n (n : N) : N := (n + 1) mod 2^64.
  Lemma ready_more c n :
    size_more c (Size max db tbl (table_query db tbl) ("ANALYZE TABLE " ++ tbl)%string n m) =
    (Size max db tbl (table_query db tbl) ("ANALYZE TABLE " ++ tbl)%string (next_n n) m,
     negb (next_n n mod m =? 0) ||
     (q_exec c ("ANALYZE TABLE " ++ tbl)%string &&
      match q_bytes c (table_query db tbl) with Some b => b <? max | None => false end))%bool.
  Proof.
    unfold size_more, size_setup. cbn [z_query]. change (table_query db tbl =? "")%string with false. cbn iota.
    cbn [z_n z_max z_m z_db z_tbl z_query z_analyze]. fold (next_n n).
    destruct (next_n n mod m =? 0); [|reflexivity]. cbn [negb orb].
    destruct (q_exec c _); [|reflexivity]. cbn [negb andb]. destruct (q_bytes c _); reflexivity.
  Qed.
  Lemma fresh_more c n : in_db c ->
    size_more c (Size max "" tbl "" "" n m) =
    match q_database c with
    | None => (Size max "" tbl query_prefix "" n m, false)
    | Some _ => size_more c (Size max db tbl (table_query db tbl) ("ANALYZE TABLE " ++ tbl)%string n m)
    end.
  Proof.
    intros D. unfold size_more at 1, size_setup. cbn [z_query z_db].
    change ("" =? "")%string with true. cbn iota. cbn [negb].
    destruct (q_database c) as [d|] eqn:E; [|reflexivity]. rewrite (D d E) in *.
    cbn [z_n z_max z_m z_db z_tbl z_query z_analyze].
    change (query_prefix ++ "table_schema='" ++ db ++ "' AND table_name='" ++ tbl ++ "'")%string with (table_query db tbl).
    rewrite ready_more. fold (next_n n).
    destruct (next_n n mod m =? 0); [|reflexivity]. cbn [negb orb].
    destruct (q_exec c _); [|reflexivity]. cbn [negb andb]. destruct (q_bytes c _); reflexivity.
  Qed.
  Lemma broken_more c n : mysql c ->
    size_more c (Size max "" tbl query_prefix "" n m) =
    (Size max "" tbl query_prefix "" (next_n n) m, negb (next_n n mod m =? 0)).
  Proof.
    intros [Q _]. unfold size_more, size_setup. cbn [z_query]. change (query_prefix =? "")%string with false. cbn iota.
    cbn [z_n z_max z_m z_db z_tbl z_query z_analyze]. fold (next_n n). rewrite Q.
    destruct (next_n n mod m =? 0); reflexivity.
  Qed.

  Lemma zstate_more c z : in_db c -> mysql c -> zstate z -> zstate (fst (size_more c z)).
  Proof.
    intros D Q H. inv H.
    - rewrite fresh_more by auto. destruct (q_database c); [rewrite ready_more|]; cbn; constructor.
    - rewrite ready_more. constructor.
    - rewrite broken_more by auto. constructor.
  Qed.

  (** calls left before the next check *)
  Definition left (n : N) : N := N.min (m - 1 - n mod m) (2^64 - 1 - n).
  Lemma next_small n : n < 2^64 - 1 -> next_n n = n + 1.
  Proof. intros. unfold next_n. apply N.mod_small. lia. Qed.
  Lemma next_wrap n : n = 2^64 - 1 -> next_n n = 0.
  Proof. intros ->. reflexivity. Qed.
  Lemma next_lt n : next_n n < 2^64.
  Proof. unfold next_n. apply N.mod_lt. discriminate. Qed.

  Lemma left_check n : n < 2^64 -> left n = 0 -> next_n n mod m = 0.
  Proof.
    intros L H. unfold left in H. pose proof m_cases as C.
    destruct (N.eq_dec n (2^64 - 1)) as [E|NE].
    - rewrite next_wrap by auto. destruct C as [-> | [-> | ->]]; reflexivity.
    - rewrite next_small by lia.
      destruct C as [E | [E | E]]; rewrite E in *; lia.
  Qed.
  Lemma left_skip n : n < 2^64 -> left n <> 0 -> next_n n mod m <> 0 /\ left (next_n n) = left n - 1.
  Proof.
    intros L H. unfold left in *. pose proof m_cases as C.
    assert (n <> 2^64 - 1) by lia. rewrite next_small by lia.
    destruct C as [E | [E | E]]; rewrite E in *; lia.
  Qed.
  Lemma left_max n : left n <= m - 1.
  Proof. unfold left. lia. Qed.

  (** the table is at least as large as the limit *)
  Definition reached (c : conn) : Prop := forall b, q_bytes c (table_query db tbl) = Some b -> max <= b.

  Lemma left_calls cs : forall z, zstate z -> z_n z < 2^64 ->
    Forall (fun c => in_db c /\ mysql c /\ reached c) cs ->
    N.of_nat (count_true (size_calls z cs)) <= left (z_n z) + (m - 1) * N.of_nat (count_false (size_calls z cs)).
  Proof.
    assert (M1 : 1 <= m) by (destruct m_cases as [-> | [-> | ->]]; lia).
    assert (STEP : forall z' b n bs, (b = true -> next_n n mod m <> 0) -> n < 2^64 ->
      z_n z' = next_n n ->
      N.of_nat (count_true bs) <= left (z_n z') + (m - 1) * N.of_nat (count_false bs) ->
      N.of_nat (count_true (b :: bs)) <= left n + (m - 1) * N.of_nat (count_false (b :: bs))).
    { intros z' b n bs B L E H. rewrite E in H. destruct b.
      - change (count_true (true :: bs)) with (S (count_true bs)). change (count_false (true :: bs)) with (count_false bs).
        specialize (B eq_refl). destruct (N.eq_dec (left n) 0) as [Z|NZ].
        + exfalso. apply B. now apply left_check.
        + destruct (left_skip n L NZ) as [_ D]. rewrite D in H. lia.
      - change (count_true (false :: bs)) with (count_true bs). change (count_false (false :: bs)) with (S (count_false bs)).
        pose proof (left_max (next_n n)). lia. }
    induction cs as [|c cs IH]; intros z Z L F; cbn [size_calls].
    - cbn. lia.
    - inv F. destruct H1 as (D & Q & R).
      assert (READY : forall n, n < 2^64 ->
        let z := Size max db tbl (table_query db tbl) ("ANALYZE TABLE " ++ tbl)%string n m in
        let '(z', b) := size_more c z in
        N.of_nat (count_true (b :: size_calls z' cs)) <= left n + (m - 1) * N.of_nat (count_false (b :: size_calls z' cs))).
      { intros n Ln z0. unfold z0. rewrite ready_more. 
        apply (STEP (Size max db tbl (table_query db tbl) ("ANALYZE TABLE " ++ tbl)%string (next_n n) m));
          [|exact Ln|reflexivity|apply IH; [constructor|apply next_lt|auto]].
        destruct (N.eqb_spec (next_n n mod m) 0) as [X|X]; [|auto]. cbn [negb orb].
        destruct (q_exec c _); [|discriminate]. destruct (q_bytes c _) eqn:EB; [|discriminate].
        apply R in EB. cbn. intros Y. apply N.ltb_lt in Y. lia. }
      inv Z.
      + rewrite fresh_more by auto. destruct (q_database c) as [d|].
        * specialize (READY n L). cbv zeta in READY. destruct (size_more c _) as [z' b]. exact READY.
        * cbn [z_n]. specialize (IH (Size max "" tbl query_prefix "" n m) (ZBroken n) L H2). cbn [z_n] in IH.
          set (bs := size_calls _ cs) in *.
          change (count_true (false :: bs)) with (count_true bs). change (count_false (false :: bs)) with (S (count_false bs)). lia.
      + specialize (READY n L). cbv zeta in READY. destruct (size_more c _) as [z' b]. exact READY.
      + rewrite broken_more by auto. apply (STEP (Size max "" tbl query_prefix "" (next_n n) m)); [|exact L|reflexivity|apply IH; [constructor|apply next_lt|auto]].
        destruct (N.eqb_spec (next_n n mod m) 0) as [X|X]; [discriminate|auto].
  Qed.

  Lemma size_calls_app cs1 cs2 : forall z, Forall (fun c => in_db c /\ mysql c) cs1 -> zstate z -> z_n z < 2^64 ->
    exists z', zstate z' /\ z_n z' < 2^64 /\ size_calls z (cs1 ++ cs2) = size_calls z cs1 ++ size_calls z' cs2 /\
      length (size_calls z cs1) = length cs1.
  Proof.
    induction cs1 as [|c cs1 IH]; intros z F Z L; cbn [app size_calls].
    - exists z. auto.
    - inv F. destruct H1 as [D Q]. pose proof (zstate_more c z D Q Z) as Z'.
      assert (L' : z_n (fst (size_more c z)) < 2^64).
      { inv Z; [rewrite fresh_more by auto; destruct (q_database c); [rewrite ready_more|]|rewrite ready_more|rewrite broken_more by auto];
          cbn [fst z_n]; auto; apply next_lt. }
      destruct (size_more c z) as [z1 b]. cbn [fst] in *. destruct (IH z1 H2 Z' L') as (z' & A1 & A2 & A3 & A4).
      exists z'. split; auto. split; auto. rewrite A3. cbn. auto.
  Qed.

  (** who is stopped, and why *)
  Lemma size_false cs : forall z i c, zstate z -> Forall (fun c => in_db c /\ mysql c) cs ->
    nth_error cs i = Some c -> nth_error (size_calls z cs) i = Some false ->
    (z_query z = query_prefix \/ exists j cj, (j <= i)%nat /\ nth_error cs j = Some cj /\ q_database cj = None) \/
    q_exec c ("ANALYZE TABLE " ++ tbl)%string = false \/
    q_bytes c (table_query db tbl) = None \/
    exists b, q_bytes c (table_query db tbl) = Some b /\ max <= b.
  Proof.
    induction cs as [|c0 cs IH]; intros z i c Z F C H; [destruct i; discriminate|]. inv F. destruct H2 as [D Q].
    cbn [size_calls] in H.
    assert (READY : forall n z' b, size_more c0 (Size max db tbl (table_query db tbl) ("ANALYZE TABLE " ++ tbl)%string n m) = (z', b) ->
      zstate z' /\ z_query z' <> query_prefix /\ (b = false ->
      q_exec c0 ("ANALYZE TABLE " ++ tbl)%string = false \/
      q_bytes c0 (table_query db tbl) = None \/
      exists b, q_bytes c0 (table_query db tbl) = Some b /\ max <= b)).
    { intros n z' b E. rewrite ready_more in E. inv E. split; [constructor|]. split; [discriminate|].
      intros X. apply orb_false_iff in X as [_ X]. apply andb_false_iff in X as [X|X]; auto.
      destruct (q_bytes c0 _); auto. right. right. eexists. split; [reflexivity|]. now apply N.ltb_ge in X. }
    destruct (size_more c0 z) as [z' b] eqn:E. pose proof (zstate_more c0 z D Q Z) as Z'. rewrite E in Z'. cbn in Z'.
    destruct i as [|i]; cbn in C, H.
    - inv C. injection H as ->. inv Z.
      + rewrite fresh_more in E by auto. destruct (q_database c) as [d|] eqn:ED.
        * destruct (READY _ _ _ E) as (_ & _ & X). right. auto.
        * left. right. exists O, c. auto.
      + destruct (READY _ _ _ E) as (_ & _ & X). right. auto.
      + left. left. reflexivity.
    - destruct (IH z' i c Z' H3 C H) as [[X|(j & cj & J1 & J2 & J3)]|X]; [|left; right; exists (S j), cj; auto with arith|auto].
      left. inv Z.
      + rewrite fresh_more in E by auto. destruct (q_database c0) as [d|] eqn:ED.
        * destruct (READY _ _ _ E) as (_ & Y & _). congruence.
        * right. exists O, c0. split; [lia|auto].
      + destruct (READY _ _ _ E) as (_ & Y & _). congruence.
      + left. reflexivity.
  Qed.
End TableSize.

Section DatabaseSize.
  Variables (max : N) (db : string).
  Hypothesis DN : db <> "".
  Let m := z_m (new_size max db "").
  Let q := (query_prefix ++ "table_schema='" ++ db ++ "'")%string.

  Lemma db_more c n : mysql c ->
    size_more c (Size max db "" q "ANALYZE TABLE " n m) =
    (Size max db "" q "ANALYZE TABLE " (next_n n) m, negb (next_n n mod m =? 0)).
  Proof.
    intros [_ Q]. unfold size_more, size_setup. cbn [z_query]. change (q =? "")%string with false. cbn iota.
    cbn [z_n z_max z_m z_db z_tbl z_query z_analyze]. fold (next_n n). rewrite Q.
    destruct (next_n n mod m =? 0); reflexivity.
  Qed.
  Lemma db_fresh c : mysql c -> q_tables c <> None ->
    size_more c (new_size max db "") = size_more c (Size max db "" q "ANALYZE TABLE " 0 m).
  Proof.
    intros Q T. rewrite db_more by auto. unfold size_more at 1, size_setup.
    assert (E : new_size max db "" = Size max db "" "" "" 0 m).
    { unfold new_size, m. reflexivity. }
    rewrite E. cbn [z_query z_db]. change ("" =? "")%string with true. cbn iota.
    apply String.eqb_neq in DN. rewrite DN. cbn [negb].
    destruct (q_tables c) as [rs|]; [|congruence]. unfold rows_closed. cbn [base_tables join_cs].
    cbn [z_n z_max z_m z_db z_tbl z_query z_analyze].
    change ("ANALYZE TABLE " ++ "")%string with "ANALYZE TABLE ". destruct Q as [_ Q]. rewrite Q.
    fold (next_n 0). fold q. destruct (next_n 0 mod m =? 0); reflexivity.
  Qed.

  Lemma db_calls cs : forall n i, n + N.of_nat (length cs) < 2^64 -> Forall mysql cs -> (i < length cs)%nat ->
    nth_error (size_calls (Size max db "" q "ANALYZE TABLE " n m) cs) i = Some (negb ((n + N.of_nat i + 1) mod m =? 0)).
  Proof.
    induction cs as [|c cs IH]; intros n i L F I; cbn [length] in *; [lia|]. inv F. cbn [size_calls].
    rewrite db_more by auto. assert (E : next_n n = n + 1) by (apply N.mod_small; lia).
    destruct i as [|i]; cbn [nth_error].
    - rewrite E. do 4 f_equal. lia.
    - rewrite E, IH by (auto; lia). do 4 f_equal. lia.
  Qed.

  Lemma db_all_calls cs i : N.of_nat (length cs) < 2^64 -> Forall mysql cs -> (forall c, In c cs -> q_tables c <> None) ->
    (i < length cs)%nat ->
    nth_error (size_calls (new_size max db "") cs) i = Some (negb ((N.of_nat i + 1) mod m =? 0)).
  Proof.
    intros L F T I. replace (N.of_nat i + 1) with (0 + N.of_nat i + 1) by lia. rewrite <- db_calls with (cs := cs) by auto.
    destruct cs as [|c cs]; cbn in I; [lia|]. cbn [size_calls]. rewrite db_fresh; [reflexivity| |apply T; left; auto]. now inv F.
  Qed.
End DatabaseSize.
