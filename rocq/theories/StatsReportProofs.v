(** Proofs about collecting, reporting and percentiles. *)
From Verif Require Import Prelude ListAux ClientModel StatsModel StatsSpec StatsProofs.

(* ------------------------------------------------------------------------------------ *)
(** * Collecting *)

Lemma trx_get_set m k v k' : trx_get m k <> None ->
  trx_get (trx_set m k v) k' = if String.eqb k' k then Some v else trx_get m k'.
Proof.
  induction m as [|[k0 v0] m IH]; cbn [trx_set trx_get]; [congruence|]. intros H.
  destruct (String.eqb_spec k k0); cbn [trx_get].
  - subst k0. destruct (String.eqb_spec k' k); reflexivity.
  - rewrite IH by assumption. destruct (String.eqb_spec k' k0); [|reflexivity]. subst k'.
    destruct (String.eqb_spec k0 k); [congruence|reflexivity].
Qed.

Section Reports.
Variable flog : Z -> bool * N.
Notation srep := (srep flog).
Definition trx_valid (m : list (string * stats)) : Prop := forall name t, trx_get m name = Some t -> valid t.
Definition okpart (c : string * stats) (p : string * list sev) : Prop :=
  fst c = fst p /\ times_ok (snd p) /\ srep (snd c) (snd p) /\ minexact (snd c) (snd p).

Lemma named_app {A} name (a b : list (string * A)) : named name (a ++ b) = named name a ++ named name b.
Proof. unfold named. now rewrite filter_app, map_app. Qed.

Lemma seen_in name seen : existsb (String.eqb name) seen = true <-> In name seen.
Proof.
  rewrite existsb_exists. split; [intros [x [Hx Ex]]; apply String.eqb_eq in Ex; now subst|].
  intros H. exists name. split; [assumption|apply String.eqb_refl].
Qed.

Lemma combine_step s c (parts : list (list sev)) p :
  Forall times_ok parts -> times_ok p ->
  srep s (concat parts) -> min_state s parts -> srep c p -> minexact c p ->
  exists s', combine s c = Some s' /\ srep s' (concat (parts ++ [p])) /\ min_state s' (parts ++ [p]).
Proof.
  intros H1 H2 H3 H4 H5 H6. destruct (combine_spec flog _ _ _ _ H3 H5) as [s1 [E1 [R1 M1]]].
  exists s1. split; [assumption|]. split.
  - rewrite concat_app. cbn [concat]. now rewrite app_nil_r.
  - eapply min_step; eauto.
Qed.

Lemma Forall_named {A} (Q : A -> Prop) name (parts : list (string * A)) :
  Forall (fun p => Q (snd p)) parts -> Forall Q (named name parts).
Proof.
  intros H. unfold named. induction H as [|p ps Hp Hps IH]; cbn [filter map]; [constructor|].
  destruct (String.eqb name (fst p)); cbn [map]; auto.
Qed.

Lemma merge_spec ss : forall total trx seen prev parts,
  Forall2 okpart ss parts ->
  Forall (fun p => times_ok (snd p)) prev ->
  srep total (concat (map snd prev)) -> min_state total (map snd prev) ->
  trx_valid trx -> (forall p, In p parts -> trx_get trx (fst p) <> None) ->
  (forall name, In name seen <-> In name (map fst prev)) ->
  (forall name, In name seen -> exists t, trx_get trx name = Some t /\ srep t (concat (named name prev)) /\ min_state t (named name prev)) ->
  exists total' trx', merge total trx seen ss = Some (total', trx') /\
    srep total' (concat (map snd (prev ++ parts))) /\ min_state total' (map snd (prev ++ parts)) /\
    trx_valid trx' /\ (forall name, trx_get trx name <> None -> trx_get trx' name <> None) /\
    (forall name, In name (map fst (prev ++ parts)) ->
       exists t, trx_get trx' name = Some t /\ srep t (concat (named name (prev ++ parts))) /\ min_state t (named name (prev ++ parts))).
Proof.
  induction ss as [|[name s] ss IH]; intros total trx seen prev parts HF Hok Ht Mt Hv Hk Hseen Hs; inv HF; cbn [merge].
  - exists total, trx. rewrite app_nil_r. split; [reflexivity|]. split; [assumption|]. split; [assumption|]. split; [assumption|].
    split; [auto|]. intros name Hn. apply Hs, Hseen, Hn.
  - destruct H1 as [Hname [Hp [Rs Ms]]]. destruct y as [name' p]. cbn [fst snd] in *. subst name'.
    destruct (trx_get trx name) as [t|] eqn:Et; [|exfalso; apply (Hk (name, p)); cbn; auto].
    assert (H0 : srep (if existsb (String.eqb name) seen then t else reset t) (concat (named name prev)) /\
                 min_state (if existsb (String.eqb name) seen then t else reset t) (named name prev)).
    { destruct (existsb (String.eqb name) seen) eqn:Es.
      - apply seen_in in Es. destruct (Hs _ Es) as [t' [Et' [H1 H2]]]. rewrite Et in Et'. inv Et'. auto.
      - assert (En : named name prev = []).
        { unfold named. replace (filter (fun p0 : string * list sev => String.eqb name (fst p0)) prev) with (@nil (string * list sev)); [reflexivity|].
          symmetry. destruct (filter _ prev) as [|x l] eqn:Ef; [reflexivity|]. exfalso.
          assert (Hx : In x (filter (fun p0 : string * list sev => String.eqb name (fst p0)) prev)) by (rewrite Ef; now left).
          apply filter_In in Hx. destruct Hx as [Hx Ex]. apply String.eqb_eq in Ex.
          rewrite <- not_true_iff_false in Es. apply Es. apply seen_in, Hseen. subst name. now apply in_map. }
        rewrite En. destruct (reset_srep flog t (Hv _ _ Et)) as [R M]. split; [exact R|]. apply min_state_nil. exact M. }
    destruct H0 as [R0 M0].
    destruct (combine_step _ s _ p (Forall_named _ name _ Hok) Hp R0 M0 Rs Ms) as [t1 [E1 [R1 M1]]]. rewrite E1.
    assert (Hok' : Forall times_ok (map snd prev)) by (apply Forall_map; exact Hok).
    destruct (combine_step _ s _ p Hok' Hp Ht Mt Rs Ms) as [tot1 [E2 [R2 M2]]]. rewrite E2.
    replace (prev ++ (name, p) :: l') with ((prev ++ [(name, p)]) ++ l') by (now rewrite <- app_assoc).
    assert (Hset : forall k, trx_get (trx_set trx name t1) k = if String.eqb k name then Some t1 else trx_get trx k).
    { intros k. apply trx_get_set. congruence. }
    destruct (IH tot1 (trx_set trx name t1) (name :: seen) (prev ++ [(name, p)]) l') as [total' [trx' [E' [A1 [A2 [A3 [A4 A5]]]]]]].
    + assumption.
    + apply Forall_app. split; [assumption|]. constructor; [assumption|constructor].
    + rewrite map_app. exact R2.
    + rewrite map_app. exact M2.
    + intros k t'. rewrite Hset. destruct (String.eqb_spec k name); [|apply Hv]. intros E. inv E. eapply srep_valid, R1.
    + intros q Hq. rewrite Hset. destruct (String.eqb (fst q) name); [congruence|]. apply Hk. now right.
    + intros k. rewrite map_app, in_app_iff. cbn [map fst In]. rewrite Hseen. intuition.
    + intros k Hin. rewrite Hset, named_app. destruct (String.eqb_spec k name).
      * subst k. exists t1. split; [reflexivity|].
        assert (En : named name [(name, p)] = [p]) by (unfold named; cbn [filter fst]; now rewrite String.eqb_refl). rewrite En. auto.
      * destruct Hin as [->|Hin]; [congruence|]. destruct (Hs _ Hin) as [t' [Et' [B1 B2]]]. exists t'. split; [assumption|].
        assert (En : named k [(name, p)] = []) by (unfold named; cbn [filter fst]; destruct (String.eqb_spec k name); [congruence|reflexivity]).
        rewrite En, app_nil_r. auto.
    + exists total', trx'. split; [assumption|]. split; [assumption|]. split; [assumption|]. split; [assumption|]. split; [|assumption].
      intros k Hk'. apply A4. rewrite Hset. destruct (String.eqb k name); congruence.
Qed.

Lemma collect_spec local ss parts :
  valid (fst local) -> trx_valid (snd local) -> (forall p, In p parts -> trx_get (snd local) (fst p) <> None) ->
  Forall2 okpart ss parts ->
  exists total' trx', collect local ss = Some (total', trx') /\
    srep total' (concat (map snd parts)) /\ min_state total' (map snd parts) /\
    trx_valid trx' /\ (forall name, trx_get (snd local) name <> None -> trx_get trx' name <> None) /\
    (forall name, In name (map fst parts) ->
       exists t, trx_get trx' name = Some t /\ srep t (concat (named name parts)) /\ min_state t (named name parts)).
Proof.
  intros Hv Ht Hk HF. unfold collect. destruct (reset_srep flog _ Hv) as [R M].
  apply (merge_spec ss (reset (fst local)) (snd local) [] [] parts); auto.
  - apply min_state_nil. exact M.
  - cbn. tauto.
  - intros name [].
Qed.

(* ------------------------------------------------------------------------------------ *)
(** * Reporters *)

Lemma Forall2_map_l {A B C} (R : B -> C -> Prop) (f : A -> B) l l' : Forall2 (fun a c => R (f a) c) l l' -> Forall2 R (map f l) l'.
Proof. induction 1; cbn [map]; constructor; auto. Qed.

Lemma inst_combine_spec total from parts :
  from <> [] -> valid total ->
  (forall f k, nth_error from 0 = Some f -> In k (map fst (s_errs (in_total f))) \/ err_get (s_errs total) k = 0%N) ->
  Forall2 (fun f p => times_ok p /\ srep (in_total f) p /\ minexact (in_total f) p) from parts ->
  exists f t, nth_error from 0 = Some f /\
    inst_combine total from = Some (fold_right N.add 0%N (map in_clients from), in_interval f, t) /\
    srep t (concat parts) /\ min_state t parts.
Proof.
  intros Hne Hv Hk HF. destruct from as [|f rest]; [congruence|]. inv HF. destruct H1 as [Hok [Rf Mf]].
  specialize (Hk f). cbn [nth_error] in Hk.
  pose proof (copy_srep flog total (in_total f) y Hv Rf (fun k => Hk k eq_refl)) as Rc.
  assert (Mc : minexact (copy_stats total (in_total f)) y).
  { intros q. rewrite copy_cells; auto. eapply srep_valid, Rf. }
  destruct (combine_all_spec flog (map in_total rest) (copy_stats total (in_total f)) [y] l') as [t [Et [Rt Mt]]].
  - constructor; [assumption|constructor].
  - clear -H3. induction H3 as [|a b l l' [H _] _ IH]; constructor; auto.
  - cbn [concat]. now rewrite app_nil_r.
  - now apply min_state_exact_one.
  - apply Forall2_map_l. eapply Forall2_weaken'; [|exact H3]. cbn. intros a b [_ H]. exact H.
  - exists f, t. split; [reflexivity|]. cbn [inst_combine]. rewrite Et. split; [|auto].
    cbn [map fold_right]. rewrite fold_add_acc. reflexivity.
Qed.

Lemma inst_combine_cells total from parts :
  from <> [] -> valid total ->
  Forall2 (fun f p => times_ok p /\ srep (in_total f) p /\ minexact (in_total f) p) from parts ->
  exists f t, nth_error from 0 = Some f /\
    inst_combine total from = Some (fold_right N.add 0%N (map in_clients from), in_interval f, t) /\
    valid t /\ (forall q, cell_counts flog (cell_of t q) (times q (concat parts))) /\ min_state t parts.
Proof.
  intros Hne Hv HF.
  (* the cells do not depend on the error counts *)
  pose (total0 := Stats (s_read total) (s_write total) (s_commit total) (s_total total) []).
  assert (Hv0 : valid total0).
  { destruct Hv as [Hl _]. split; [intros q; specialize (Hl q); destruct q; exact Hl|constructor]. }
  destruct (inst_combine_spec total0 from parts Hne Hv0 (fun _ _ _ => or_intror eq_refl) HF) as [f [t [Ef [E [R M]]]]].
  assert (Hok : times_ok (concat parts)).
  { apply times_ok_concat. clear -HF. induction HF as [|a b l l' [H _] _ IH]; constructor; auto. }
  destruct from as [|f' rest]; [congruence|]. inv Ef. cbn [inst_combine] in *.
  assert (Hgen : forall l a b r, (forall q, cell_of a q = cell_of b q) -> NoDup (map fst (s_errs b)) ->
            Forall (fun c => NoDup (map fst (s_errs c))) l ->
            combine_all a l = Some r ->
            exists r', combine_all b l = Some r' /\ (forall q, cell_of r' q = cell_of r q) /\ NoDup (map fst (s_errs r'))).
  { clear. induction l as [|c l IH]; intros a b r Hab Hb Hl E; cbn [combine_all] in *.
    - inv E. exists b. split; [reflexivity|]. split; [intros q; now rewrite Hab|assumption].
    - inv Hl. unfold combine in *.
      pose proof (Hab READ) as E1. pose proof (Hab WRITE) as E2. pose proof (Hab COMMIT) as E3. pose proof (Hab TOTAL) as E4.
      cbn [cell_of] in E1, E2, E3, E4. rewrite E1, E2, E3, E4 in E.
      destruct (combine_cell (s_read b) (s_read c)); [|discriminate].
      destruct (combine_cell (s_write b) (s_write c)); [|discriminate].
      destruct (combine_cell (s_commit b) (s_commit c)); [|discriminate].
      destruct (combine_cell (s_total b) (s_total c)); [|discriminate].
      eapply IH; [| |eassumption|exact E].
      + intros []; reflexivity.
      + cbn [s_errs]. apply add_errs_spec; assumption. }
  destruct (combine_all (copy_stats total0 (in_total f)) (map in_total rest)) as [t0|] eqn:E0; [|discriminate]. inv E.
  assert (Hf : NoDup (map fst (s_errs (in_total f)))).
  { inversion HF as [|a b l1 l2 [_ [H1 _]] _]. apply (srep_valid _ _ _ H1). }
  destruct (Hgen (map in_total rest) (copy_stats total0 (in_total f)) (copy_stats total (in_total f)) t) as [r' [E1 [E2 E3]]]; [| | |exact E0|].
  - intros []; reflexivity.
  - cbn [copy_stats s_errs]. apply copy_errs_spec; [apply Hv|assumption].
  - inversion HF as [|a b l1 l2 _ H3]. apply Forall_map. clear -H3. induction H3 as [|a b l l' [_ [H _]] _ IH]; constructor; auto. apply (srep_valid _ _ _ H).
  - exists f, r'. split; [reflexivity|]. rewrite E1. split; [f_equal; f_equal; f_equal; cbn [map fold_right]; apply fold_add_acc|].
    pose proof (srep_valid _ _ _ R) as [Vl _]. split; [split; [intros q; rewrite E2; apply Vl|assumption]|]. split.
    + intros q. rewrite E2. apply (srep_exact flog _ _ Hok R).
    + intros q. rewrite E2. apply M.
Qed.

End Reports.

(* ------------------------------------------------------------------------------------ *)
(** * Percentiles *)

Section Pct.
Context {F P : Type}.
Variable freq : N -> N -> F.
Variable ge : F -> P -> bool.
Variable same_int : P -> F -> bool.
Variable bound : nat -> N.
Notation loop := (pct_loop freq ge same_int bound).

Lemma upto_app pre b rest : upto (pre ++ b :: rest) (length pre) = (fold_right N.add 0 pre + b)%N.
Proof.
  unfold upto. replace (S (length pre)) with (length (pre ++ [b])) by (rewrite app_length; cbn; lia).
  replace (pre ++ b :: rest) with ((pre ++ [b]) ++ rest) by (now rewrite <- app_assoc).
  rewrite firstn_app, firstn_all, Nat.sub_diag, app_nil_r. clear. induction pre as [|x pre IH]; cbn [app fold_right]; [lia|]. rewrite IH. lia.
Qed.

Lemma loop_found total all ps firsts : Forall2 (fun p i => first_bucket freq ge all total p i) ps firsts ->
  forall pre rest, all = pre ++ rest -> (forall i, In i firsts -> length pre <= i) ->
  (forall a b i i', firsts = a ++ i :: b -> In i' b -> i < i') ->
  loop total (length pre) (fold_right N.add 0%N pre) rest ps =
  map (fun pi => pct_value same_int bound (fst pi) (freq (upto all (snd pi)) total) (snd pi)) (List.combine ps firsts).
Proof.
  intros HF pre rest. revert ps firsts HF pre.
  induction rest as [|b rest IH]; intros ps firsts HF pre Hall Hlo Hinc.
  - destruct ps as [|p ps]; inv HF; [reflexivity|]. destruct H1 as [H1 _]. specialize (Hlo y (or_introl eq_refl)). rewrite app_nil_r in H1. lia.
  - destruct ps as [|p ps]; [inversion HF; reflexivity|].
    destruct firsts as [|i firsts']; [inversion HF|].
    assert (Hi : first_bucket freq ge all total p i) by (now inversion HF).
    assert (HF' : Forall2 (fun p i => first_bucket freq ge all total p i) ps firsts') by (now inversion HF).
    cbn [pct_loop]. rewrite <- (upto_app pre b rest), <- Hall.
    replace (upto all (length pre)) with (fold_right N.add 0%N (pre ++ [b])).
    2: { rewrite Hall, upto_app. clear. induction pre as [|x pre IH]; cbn [app fold_right]; [lia|]. rewrite IH. lia. }
    replace (S (length pre)) with (length (pre ++ [b])) by (rewrite app_length; cbn; lia).
    assert (Eb : fold_right N.add 0%N (pre ++ [b]) = upto all (length pre)).
    { rewrite Hall, upto_app. clear. induction pre as [|x pre IH]; cbn [app fold_right]; [lia|]. rewrite IH. lia. }
    assert (Hall' : all = (pre ++ [b]) ++ rest) by (rewrite <- app_assoc; exact Hall).
    destruct Hi as [Hi1 [Hi2 Hi3]]. pose proof (Hlo i (or_introl eq_refl)) as Hli.
    destruct (Nat.eq_dec i (length pre)) as [->|Hne].
    + rewrite Eb, Hi2. rewrite <- Eb. cbn [List.combine map fst snd]. f_equal; [now rewrite Eb|].
      apply IH; auto.
      * intros i' Hi'. rewrite app_length. cbn [length]. pose proof (Hinc [] firsts' (length pre) i' eq_refl Hi'). lia.
      * intros x y j j' E Hj'. apply (Hinc (length pre :: x) y j j'); [now rewrite E|assumption].
    + rewrite Eb, Hi3 by lia. rewrite <- Eb.
      apply (IH (p :: ps) (i :: firsts')); auto.
      intros i' Hi'. rewrite app_length. cbn [length]. destruct Hi' as [<-|Hi']; [lia|].
      pose proof (Hinc [] firsts' i i' eq_refl Hi'). lia.
Qed.

Lemma percentiles_found c ps firsts : Forall2 (fun p i => first_bucket freq ge (ce_buckets c) (ce_n c) p i) ps firsts ->
  (forall a b i i', firsts = a ++ i :: b -> In i' b -> i < i') ->
  percentiles freq ge same_int bound c ps =
  map (fun pi => pct_value same_int bound (fst pi) (freq (upto (ce_buckets c) (snd pi)) (ce_n c)) (snd pi)) (List.combine ps firsts).
Proof.
  intros HF Hinc. unfold percentiles.
  pose proof (loop_found (ce_n c) (ce_buckets c) ps firsts HF [] (ce_buckets c) eq_refl (fun i _ => Nat.le_0_l i) Hinc) as E.
  cbn [length fold_right] in E. rewrite E, map_length, combine_length.
  rewrite <- (F2_length _ _ _ HF). replace (length ps - _) with 0 by lia. cbn [repeat]. apply app_nil_r.
Qed.

Lemma loop_none total ps : forall rest i n,
  (forall m p, In p ps -> ge (freq m total) p = false) -> loop total i n rest ps = [].
Proof.
  intros rest. induction rest as [|b rest IH]; intros i n H; [reflexivity|]. destruct ps as [|p ps]; [reflexivity|].
  cbn [pct_loop]. rewrite H by now left. now apply IH.
Qed.

(** One percentile that is never reached. *)
Lemma loop_not_reached total all p : (forall i, i < length all -> ge (freq (upto all i) total) p = false) ->
  forall rest pre ps, all = pre ++ rest -> loop total (length pre) (fold_right N.add 0%N pre) rest (p :: ps) = [].
Proof.
  intros H rest. induction rest as [|b rest IH]; intros pre ps Hall; [reflexivity|]. cbn [pct_loop].
  rewrite <- (upto_app pre b rest), <- Hall, H by (rewrite Hall, app_length; cbn [length]; lia).
  replace (upto all (length pre)) with (fold_right N.add 0%N (pre ++ [b])).
  2: { rewrite Hall, upto_app. clear. induction pre as [|x pre IH]; cbn [app fold_right]; [lia|]. rewrite IH. lia. }
  replace (S (length pre)) with (length (pre ++ [b])) by (rewrite app_length; cbn; lia).
  apply IH. rewrite <- app_assoc. exact Hall.
Qed.

(** All events in the last bucket: of several percentiles only the first one is found. *)
Lemma loop_last total n : forall k i ps p1,
  (forall p, In p (p1 :: ps) -> ge (freq 0 total) p = false) -> ge (freq n total) p1 = true ->
  loop total i 0 (repeat 0%N k ++ [n]) (p1 :: ps) = [pct_value same_int bound p1 (freq n total) (i + k)].
Proof.
  induction k as [|k IH]; intros i ps p1 H0 H1; cbn [repeat app pct_loop].
  - rewrite N.add_0_l, H1, Nat.add_0_r. f_equal. 
  - change (0 + 0)%N with 0%N. rewrite H0 by now left. rewrite IH by assumption. do 2 f_equal. lia.
Qed.

Lemma pct_between p f i : (forall a b, a <= b -> (bound a <= bound b)%N) ->
  (bound (i - 1) <= pct_value same_int bound p f i <= bound i)%N.
Proof.
  intros H. unfold pct_value. pose proof (H (i - 1) i ltac:(lia)) as Hb. repeat dmg; try lia.
  apply Nat.eqb_eq in Heqb0. subst i. cbn. lia.
Qed.
End Pct.
