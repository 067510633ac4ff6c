(** Proofs for C143: clients with both iter-clients and iter-exec-group. *)
From Verif Require Import Prelude ListAux ScopeModel StmtModel WorkloadModel IterModel IterSpec IterProofs.
From Verif Require Import WorkloadSpec InstanceProofs WireProofs BothProofs.

(** A client without iter that passed a check of a shared counter begins its iteration, unless it is stopped by iter-clients. *)
Lemma no_loss st i b st' k k' : iter_step st i b = Some st' -> nth_error (is_cls st) i = Some k -> set_nth (is_cls st) i k' = Some (is_cls st') ->
  c_iter (ic_c k) = 0%N -> (passes false k <= passes false k')%N /\
  ((passes true k <= passes true k')%N \/ forall q, c_iterClientsPtr (ic_c k) = Some q -> (c_iterClients (ic_c k) < is_cnt st' q)%N).
Proof.
  intros H EK ES C0. unfold iter_step in H. rewrite EK in H.
  assert (X : forall cnt ph m, (match set_nth (is_cls st) i (ICl (ic_c k) ph m) with Some l => Some (ISt cnt l) | None => None end) = Some st' ->
      is_cnt st' = cnt /\ k' = ICl (ic_c k) ph m).
  { intros cnt ph m E. destruct (set_nth (is_cls st) i (ICl (ic_c k) ph m)) as [l|] eqn:ES'; [|discriminate]. injection E as <-. cbn [is_cls] in ES.
    split; [reflexivity|]. exact (set_same _ _ _ _ _ _ EK ES ES'). }
  destruct (ic_ph k) eqn:EP; try discriminate.
  - destruct (shared_check _ _ _) as [cnt ret]. destruct (X _ _ _ H) as (Y & ->). unfold passes. rewrite EP. cbn [ic_n ic_ph]. split; [|left]; lia.
  - destruct (shared_check _ _ _) as [cnt ret] eqn:Q. destruct (X _ _ _ H) as (Y & ->). unfold passes. rewrite EP. cbn [ic_n ic_ph]. split; [lia|].
    destruct ret; [|left; lia]. right. intros q EQ. unfold shared_check in Q. rewrite EQ in Q. destruct (0 <? c_iterClients (ic_c k))%N; [|discriminate].
    injection Q as <- L. rewrite Y, natupd_same. now apply N.ltb_lt.
  - rewrite C0 in H. cbn [N.ltb N.compare andb] in H. destruct (X _ _ _ H) as (Y & ->). unfold passes. rewrite EP. cbn [ic_n ic_ph]. split; [|left]; lia.
  - destruct (X _ _ _ H) as (Y & ->). unfold passes. rewrite EP. cbn [ic_n ic_ph]. split; [|left]; lia.
Qed.

Section Min.
  Variables (pe pc : nat) (x n : N) (cs : list client).
  Hypothesis KE : forall c, In c cs -> uses_ptr false pe c = false.
  Hypothesis KC : forall c, In c cs -> uses_ptr true pc c = false.
  Hypothesis SAME : forall c, In c cs -> uses_ptr true pe c = uses_ptr false pc c.
  Hypothesis LIM : forall c, In c cs -> uses_ptr false pc c = true -> c_iterEg c = x /\ c_iterClients c = n /\ c_iter c = 0%N.
  Hypothesis NE : (x + N.of_nat (length (filter (uses_ptr true pe) cs)) < 2^32)%N.
  Hypothesis NC : (n + N.of_nat (length (filter (uses_ptr false pc) cs)) < 2^32)%N.
  Let LE : forall c, In c cs -> uses_ptr true pe c = true -> (lim_of true c <= x)%N.
  Proof. intros c I U. rewrite SAME in U by exact I. cbn. destruct (LIM _ I U). lia. Qed.
  Let LC : forall c, In c cs -> uses_ptr false pc c = true -> (lim_of false c <= n)%N.
  Proof. intros c I U. cbn. destruct (LIM _ I U) as (_ & ? & _). lia. Qed.

  Definition minv (st : ist) : Prop :=
    tinv true pe x cs st /\ tinv false pc n cs st /\
    (N.min (is_cnt st pc) n <= sumn (taken false pc) (is_cls st))%N /\
    (is_cnt st pc <= n -> N.min (is_cnt st pe) x <= sumn (taken true pe) (is_cls st))%N.

  Lemma minv_step st i b st' : minv st -> iter_step st i b = Some st' -> minv st'.
  Proof.
    intros (TE & TC & A & B) H.
    destruct (tinv_step true pe x cs KE LE NE _ _ _ _ TE H) as (TE' & ME). destruct (tinv_step false pc n cs KC LC NC _ _ _ _ TC H) as (TC' & MC).
    split; [exact TE'|]. split; [exact TC'|].
    destruct TE as ((HC & HDE & _) & _). destruct TC as ((_ & HDC & _) & _).
    destruct (step_cases true pe cs KE _ _ _ _ HC H) as (k & k' & EK & ES & EC & CE).
    destruct (step_cases false pc cs KC _ _ _ _ HC H) as (k0 & k0' & EK0 & ES0 & _ & CC).
    assert (k0 = k) as -> by congruence. assert (k0' = k') as -> by exact (set_same _ _ _ _ _ _ EK ES0 ES).
    assert (IN : In (ic_c k) cs) by (rewrite <- HC; apply in_map, (nth_error_In _ _ EK)).
    pose proof (sumn_set (taken true pe) _ _ _ _ _ EK ES) as SE. pose proof (sumn_set (taken false pc) _ _ _ _ _ EK ES) as SC.
    assert (UE : usesk true pe k' = usesk true pe k) by (unfold usesk; now rewrite EC).
    assert (UC : usesk false pc k' = usesk false pc k) by (unfold usesk; now rewrite EC).
    assert (UU : usesk true pe k = usesk false pc k) by exact (SAME _ IN).
    unfold taken at 2 4 in SE. unfold taken at 2 4 in SC. rewrite UE in SE. rewrite UC in SC.
    split.
    - destruct CC as [(U & NF & CN & CC)|(CN & NF & CC)].
      + rewrite U in SC. destruct (LIM _ IN U) as (_ & L & _). cbn [lim_of] in CC. rewrite L in CC.
        pose proof (done_lt_users false pc _ _ _ EK U NF) as DL. rewrite sumn_users, HC in DL.
        assert (VAL : is_cnt st' pc = (is_cnt st pc + 1)%N) by (rewrite CN; unfold u32; apply N.mod_small; lia).
        destruct CC as [(_ & LT & PS)|(_ & LT & PS)]; rewrite PS in SC; lia.
      + rewrite CN. destruct (usesk false pc k) eqn:U; [|lia]. destruct (LIM _ IN U) as (_ & _ & L). pose proof (proj1 (no_loss _ _ _ _ _ _ H EK ES L)). lia.
    - intros LN. specialize (B ltac:(lia)). destruct CE as [(U & NF & CN & CE)|(CN & NF & CE)].
      + rewrite U in SE. assert (U' : usesk false pc k = true) by congruence. destruct (LIM _ IN U') as (L & _). cbn [lim_of] in CE. rewrite L in CE.
        pose proof (done_lt_users true pe _ _ _ EK U NF) as DL. rewrite sumn_users, HC in DL.
        assert (VAL : is_cnt st' pe = (is_cnt st pe + 1)%N) by (rewrite CN; unfold u32; apply N.mod_small; lia).
        destruct CE as [(_ & LT & PS)|(_ & LT & PS)]; rewrite PS in SE; lia.
      + rewrite CN. destruct (usesk true pe k) eqn:U; [|lia]. symmetry in UU. destruct (LIM _ IN UU) as (_ & L & L0).
        destruct (proj2 (no_loss _ _ _ _ _ _ H EK ES L0)) as [Z|Z]; [lia|]. exfalso.
        unfold usesk, uses_ptr in UU. apply andb_true_iff in UU as [_ UU]. cbn [ptr_of] in UU.
        destruct (c_iterClientsPtr (ic_c k)) as [q|]; [|discriminate]. apply Nat.eqb_eq in UU. subst q. specialize (Z _ eq_refl). lia.
  Qed.

  Lemma minv_run sched : forall st st', minv st -> iter_run st sched = Some st' -> minv st'.
  Proof.
    induction sched as [|[i b] sched IH]; intros st st' I H; cbn in H; [congruence|].
    destruct (iter_step st i b) as [st1|] eqn:E; [|discriminate]. eapply IH; [|eauto]. eapply minv_step; eauto.
  Qed.
  Lemma minv_init : minv (iter_init cs).
  Proof. split; [now apply tinv_init|]. split; [now apply tinv_init|]. cbn [iter_init is_cnt]. split; [|intros _]; lia. Qed.

  (** If all users end, they begin as many iterations as the lower limit. *)
  Lemma min_end sched st j c : iter_run (iter_init cs) sched = Some st -> nth_error cs j = Some c -> uses_ptr false pc c = true ->
    (forall b, In (j, b) sched -> b = false) -> (forall k, In k (is_cls st) -> usesk false pc k = true -> ic_ph k = Finished) ->
    sumn (fun k => if usesk false pc k then ic_n k else 0%N) (is_cls st) = N.min n x.
  Proof.
    intros H J U NB ALL. destruct (minv_run _ _ _ minv_init H) as (((HC & _ & UPE) & _) & ((_ & _ & UPC) & _) & A & B). pose proof (nth_error_In _ _ J) as IC.
    destruct (LIM _ IC U) as (L1 & L2 & L3).
    assert (PE : c_iterEgPtr c = Some pe /\ c_iterClientsPtr c = Some pc).
    { assert (U' := U). rewrite <- SAME in U' by exact IC. unfold uses_ptr in U, U'. apply andb_true_iff in U as [_ U], U' as [_ U']. cbn [ptr_of] in U, U'.
      destruct (c_iterEgPtr c); [|discriminate]. destruct (c_iterClientsPtr c); [|discriminate]. apply Nat.eqb_eq in U, U'. now subst. }
    destruct PE as (PE & PC).
    assert (TE : forall e p, (forall k, In k (is_cls st) -> usesk e p k = usesk false pc k) ->
      sumn (taken e p) (is_cls st) = sumn (fun k => if usesk false pc k then ic_n k else 0%N) (is_cls st)).
    { intros e p Q. apply sumn_ext. intros k IK. unfold taken. rewrite (Q k IK). destruct (usesk false pc k) eqn:UK; [|reflexivity].
      unfold passes. rewrite (ALL _ IK UK). lia. }
    assert (PK : forall e p v, (forall k, In k (is_cls st) -> usesk e p k = usesk false pc k) ->
      (forall k, In k (is_cls st) -> usesk e p k = true -> (lim_of e (ic_c k) <= v)%N) -> sumn (passk e p v) (is_cls st) = sumn (taken e p) (is_cls st)).
    { intros e p v Q QL. apply sumn_ext. intros k IK. unfold taken, passk. destruct (usesk e p k) eqn:UK; [|reflexivity].
      specialize (QL _ IK UK). apply N.leb_le in QL. now rewrite QL. }
    assert (INC : forall k, In k (is_cls st) -> In (ic_c k) cs) by (intros k IK; rewrite <- HC; now apply in_map).
    rewrite (PK false pc n) in UPC; [|reflexivity|intros k IK UK; apply LC; auto].
    rewrite (PK true pe x) in UPE; [|intros k IK; apply SAME; auto|intros k IK UK; apply LE; auto].
    rewrite (TE false pc) in UPC by reflexivity. rewrite (TE true pe) in UPE by (intros k IK; apply SAME; auto).
    rewrite (TE false pc) in A by reflexivity. rewrite (TE true pe) in B.
    2:{ intros k IK. apply SAME. rewrite <- HC. now apply in_map. }
    destruct (N.lt_ge_cases n (is_cnt st pc)) as [LT|GE]; [lia|]. specialize (B GE).
    assert (W : why j c st).
    { refine (why_run cs j c J _ sched NB st H). intros [|] L.
      - exists pe. split; [exact PE|]. exists x. auto.
      - exists pc. split; [exact PC|]. exists n. auto. }
    destruct (nth_error (is_cls st) j) as [k|] eqn:K.
    2:{ apply nth_error_None in K. assert (j < length cs)%nat by (apply nth_error_Some; congruence). rewrite <- HC, map_length in H0. lia. }
    destruct (W k K) as (WC & WF). assert (UK : usesk false pc k = true) by (unfold usesk; now rewrite WC).
    destruct (WF (ALL _ (nth_error_In _ _ K) UK)) as [(Z & _)|([|] & p & Z1 & Z2 & Z3)]; cbn [ptr_of lim_of] in *; [lia| |].
    - assert (p = pe) as -> by congruence. lia.
    - assert (p = pc) as -> by congruence. lia.
  Qed.
End Min.

Section Alloc.
  Variables (ts : trxset) (ws : bool) (stage : N) (wl : list cgcfg) (qn tn : N) (w w' : wst)
    (out : list (list (list client))) (wl' : list cgcfg) (gs : list (list nat)).
  Hypotheses (HA : allocate ts ws stage wl qn tn w = Some (w', out)) (HG : groups ts wl = Some (wl', gs)).

  (** A client group alone in its execution group. *)
  Lemma clients_min e cg sched st : cg_at wl' gs e 0 = Some cg -> (0 < cg_iterClients cg)%N -> (0 < cg_iterExecGroup cg)%N ->
    (forall g c, In (e, g, c) (labelled out) -> g = O /\ c_iter c = 0%N) ->
    (cg_iterClients cg + clients_in (one_group e 0) (labelled out) < 2^32)%N -> (cg_iterExecGroup cg + clients_in (one_group e 0) (labelled out) < 2^32)%N ->
    (exists c, In (e, O, c) (labelled out)) ->
    undisturbed (one_group e 0) (labelled out) sched -> clients_run out sched = Some st ->
    all_finished (one_group e 0) (labelled out) (is_cls st) ->
    iterations (one_group e 0) (labelled out) (is_cls st) = N.min (cg_iterClients cg) (cg_iterExecGroup cg).
  Proof.
    intros X L1 L2 ALONE B1 B2 (c & I) UD R AF. pose proof (run_clients _ _ _ R) as RC. unfold clients_run in R.
    destruct (group_ptr _ _ _ _ _ _ _ _ _ _ _ HA HG _ _ _ _ I X L1) as (pc & EC & KC & C1 & C2).
    destruct (eg_ptr _ _ _ _ _ _ _ _ _ _ _ HA HG _ _ _ _ I X L2) as (pe & EE & KE & E1 & E2).
    assert (S1 : u32 (cg_iterClients cg) = cg_iterClients cg) by (apply u32_small; lia).
    assert (S2 : u32 (cg_iterExecGroup cg) = cg_iterExecGroup cg) by (apply u32_small; lia).
    assert (ONE : forall e' g', one_group e 0 e' g' = true -> e' = e /\ g' = O).
    { intros e' g' S. unfold one_group in S. apply andb_true_iff in S as [Q1 Q2]. apply Nat.eqb_eq in Q1, Q2. auto. }
    assert (OO : one_group e 0 e 0 = true) by (unfold one_group; now rewrite !Nat.eqb_refl).
    assert (UC : forall e' g' c', In (e', g', c') (labelled out) -> uses_ptr false pc c' = one_group e 0 e' g').
    { intros e' g' c' I'. destruct (uses_ptr false pc c') eqn:U; [symmetry; eauto|]. destruct (one_group e 0 e' g') eqn:S; auto.
      exfalso. specialize (C2 _ _ _ I' ltac:(lia) S). congruence. }
    assert (UE : forall e' g' c', In (e', g', c') (labelled out) -> uses_ptr true pe c' = one_group e 0 e' g').
    { intros e' g' c' I'. destruct (uses_ptr true pe c') eqn:U.
      - specialize (E1 _ _ _ I' U). unfold exec_group in E1. apply Nat.eqb_eq in E1. subst e'. destruct (ALONE _ _ I') as (-> & _). now rewrite OO.
      - destruct (one_group e 0 e' g') eqn:S; auto. exfalso. destruct (ONE _ _ S) as [-> ->].
        specialize (E2 _ _ _ _ I' X ltac:(lia)). unfold exec_group in E2. specialize (E2 (Nat.eqb_refl _)). congruence. }
    assert (LAB : forall c', In c' (map snd (labelled out)) -> exists e' g', In (e', g', c') (labelled out)).
    { intros c' I'. apply in_map_iff in I' as ([[e' g'] c''] & <- & I'). eauto. }
    assert (NUM : forall eg p, (forall e' g' c', In (e', g', c') (labelled out) -> uses_ptr eg p c' = one_group e 0 e' g') ->
      (N.of_nat (length (filter (uses_ptr eg p) (map snd (labelled out)))) <= clients_in (one_group e 0) (labelled out))%N).
    { intros eg p Q. apply users_le. intros e' g' c' I' U. now rewrite <- (Q _ _ _ I'). }
    assert (KK : forall e' g' c' k, In (e', g', c') (labelled out) -> In k (is_cls st) -> ic_c k = c' -> usesk false pc k = one_group e 0 e' g').
    { intros e' g' c' k I' IK <-. apply UC; auto. }
    rewrite (iterations_eq _ (usesk false pc) _ _ RC KK). apply In_nth_error in I as (j & J).
    refine (min_end pe pc (cg_iterExecGroup cg) (cg_iterClients cg) (map snd (labelled out)) KE KC _ _ _ _ sched st j c R _ _ _ _).
    - intros c' I'. destruct (LAB _ I') as (e' & g' & I2). now rewrite (UE _ _ _ I2), (UC _ _ _ I2).
    - intros c' I' U. destruct (LAB _ I') as (e' & g' & I2). rewrite (UC _ _ _ I2) in U. destruct (ONE _ _ U) as [-> ->].
      destruct (lab_cfg _ _ _ _ _ _ _ _ _ _ _ HA HG _ _ _ I2) as (cg1 & X1 & Q1 & _ & Q2 & _). assert (cg1 = cg) as -> by congruence.
      split; [congruence|]. split; [congruence|]. exact (proj2 (ALONE _ _ I2)).
    - pose proof (NUM true pe UE). lia.
    - pose proof (NUM false pc UC). lia.
    - rewrite nth_error_map, J. reflexivity.
    - rewrite (UC _ _ _ (nth_error_In _ _ J)). exact OO.
    - intros b IB. eapply UD; eauto.
    - intros k IK UK. apply In_nth_error in IK as [i IK].
      assert (Q : nth_error (map snd (labelled out)) i = Some (ic_c k)) by (rewrite <- RC; apply map_nth_error; auto).
      rewrite nth_error_map in Q. destruct (nth_error (labelled out) i) as [[[e' g'] c']|] eqn:EJ; [|discriminate]. cbn in Q.
      injection Q as ->. apply (AF _ _ _ _ _ EJ IK). apply nth_error_In in EJ, IK. rewrite <- (KK _ _ _ _ EJ IK eq_refl). exact UK.
  Qed.
End Alloc.
