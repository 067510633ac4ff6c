(** Proofs for C142: clients with iter and iter-clients. *)
From Verif Require Import Prelude ListAux ScopeModel StmtModel WorkloadModel IterModel IterSpec IterProofs.
From Verif Require Import WorkloadSpec InstanceProofs WireProofs.

Lemma set_same {A} : forall (l : list A) i a x y l', nth_error l i = Some a -> set_nth l i x = Some l' -> set_nth l i y = Some l' -> x = y.
Proof.
  induction l as [|z l IH]; intros [|i] a x y l' H X Y; cbn in *; try discriminate; [congruence|].
  destruct (set_nth l i x) as [u|] eqn:A1; [|discriminate]. destruct (set_nth l i y) as [v|] eqn:B1; [|discriminate].
  injection X as <-. injection Y as Q. subst v. eauto.
Qed.
Lemma nth_set_same {A} : forall (l : list A) i x l', set_nth l i x = Some l' -> nth_error l' i = Some x.
Proof.
  induction l as [|z l IH]; intros [|i] x l' H; cbn in *; try discriminate; [now injection H as <-|].
  destruct (set_nth l i x) as [u|] eqn:E; [|discriminate]. injection H as <-. cbn. eauto.
Qed.
Lemma nth_set_other {A} : forall (l : list A) i x l' j, set_nth l i x = Some l' -> j <> i -> nth_error l' j = nth_error l j.
Proof.
  induction l as [|z l IH]; intros [|i] x l' [|j] H N; cbn in *; try discriminate; try congruence; try (injection H as <-; reflexivity).
  all: destruct (set_nth l i x) as [u|] eqn:E; [|discriminate]; injection H as <-; cbn; try reflexivity. eapply IH; eauto.
Qed.

Section Both.
  Variables (p : nat) (n : N) (cs : list client).
  Let users := filter (uses_ptr false p) cs.
  Hypothesis KIND : forall c, In c cs -> uses_ptr true p c = false.
  Hypothesis LIM : forall c, In c cs -> uses_ptr false p c = true -> c_iterClients c = n /\ c_iterEg c = 0%N.
  Hypothesis NOWRAP : (n + N.of_nat (length users) < 2^32)%N.
  Let LIM' : forall c, In c cs -> uses_ptr false p c = true -> (lim_of false c <= n)%N.
  Proof. intros c I U. cbn. destruct (LIM _ I U). lia. Qed.

  (** What a client took from the counter. *)
  Definition took (k : icl) : N := if usesk false p k then passes false k else 0%N.
  Definition binv (st : ist) : Prop :=
    cinv false p n cs n st /\ (is_cnt st p <= sumn took (is_cls st) + sumn (donek false p) (is_cls st))%N /\
    (forall k, In k (is_cls st) -> usesk false p k = true -> ic_ph k = Finished -> ((0 < c_iter (ic_c k))%N /\ ic_n k = c_iter (ic_c k)) \/ (n < is_cnt st p)%N).

  (** A client that ends without increasing the counter has reached its own limit. *)
  Lemma own_end st i st' k k' : iter_step st i false = Some st' -> nth_error (is_cls st) i = Some k -> set_nth (is_cls st) i k' = Some (is_cls st') ->
    usesk false p k = true -> c_iterEg (ic_c k) = 0%N -> (is_cnt st p + 1 < 2^32)%N -> is_cnt st' p = is_cnt st p -> ic_ph k' = Finished ->
    (0 < c_iter (ic_c k))%N /\ ic_n k' = c_iter (ic_c k) /\ (passes false k = passes false k' + 1)%N.
  Proof.
    intros H EK ES U EG LT CN F. unfold iter_step in H. rewrite EK in H.
    assert (X : forall cnt ph m, (match set_nth (is_cls st) i (ICl (ic_c k) ph m) with Some l => Some (ISt cnt l) | None => None end) = Some st' ->
        is_cnt st' = cnt /\ k' = ICl (ic_c k) ph m).
    { intros cnt ph m E. destruct (set_nth (is_cls st) i (ICl (ic_c k) ph m)) as [l|] eqn:ES'; [|discriminate]. injection E as <-. split; [reflexivity|]. cbn [is_cls] in ES.
      clear - ES ES' EK. revert i l EK ES ES'. generalize (is_cls st) as ks. induction ks as [|x ks IH]; intros [|i] l EK ES ES'; cbn in *; try discriminate.
      - congruence.
      - destruct (set_nth ks i k') as [a|] eqn:A; [|discriminate]. destruct (set_nth ks i (ICl (ic_c k) ph m)) as [b|] eqn:B; [|discriminate].
        injection ES as <-. injection ES' as Q. subst b. eauto. }
    destruct (ic_ph k) eqn:EP; try discriminate.
    - unfold shared_check in H. rewrite EG in H. cbn in H. destruct (X _ _ _ H) as (_ & ->). discriminate.
    - unfold usesk, uses_ptr in U. apply andb_true_iff in U as [U1 U2]. cbn [lim_of ptr_of] in U1, U2. unfold shared_check in H. rewrite U1 in H.
      destruct (c_iterClientsPtr (ic_c k)) as [q|]; [|discriminate]. apply Nat.eqb_eq in U2. subst q. destruct (X _ _ _ H) as (Y & _).
      rewrite Y, natupd_same in CN. unfold u32 in CN. rewrite N.mod_small in CN by lia. lia.
    - destruct ((0 <? c_iter (ic_c k)) && (ic_n k =? c_iter (ic_c k)))%N%bool eqn:LI; destruct (X _ _ _ H) as (_ & ->); [|discriminate].
      cbn [ic_n]. unfold passes. rewrite EP. cbn. lia.
    - destruct (X _ _ _ H) as (_ & ->). discriminate.
  Qed.

  Lemma binv_step st i b st' : binv st -> (forall c, nth_error cs i = Some c -> uses_ptr false p c = true -> b = false) ->
    iter_step st i b = Some st' -> binv st'.
  Proof.
    intros (HI & HE & HF) NB H. pose proof (cinv_step false p n cs KIND n LIM' NOWRAP _ _ _ _ HI H) as HI'. split; [exact HI'|].
    destruct HI as (HC & HD & HP). destruct (step_cases false p cs KIND _ _ _ _ HC H) as (k & k' & EK & ES & EC & CASES).
    pose proof (sumn_set took _ _ _ _ _ EK ES) as ST. pose proof (sumn_set (donek false p) _ _ _ _ _ EK ES) as SD.
    assert (IN : In (ic_c k) cs) by (rewrite <- HC; apply in_map, (nth_error_In _ _ EK)).
    assert (UK : usesk false p k' = usesk false p k) by (unfold usesk; now rewrite EC).
    assert (NB' : usesk false p k = true -> b = false).
    { intros U. apply (NB (ic_c k)); [|exact U]. rewrite <- HC. now apply map_nth_error. }
    unfold took at 2 4 in ST. unfold donek at 2 4 in SD. rewrite UK in *.
    destruct CASES as [(U & NF & CN & CASES)|(CN & NF & CASES)].
    - rewrite U in *. cbn [andb] in *. destruct (LIM _ IN U) as (L1 & L2). cbn [lim_of] in CASES. rewrite L1 in CASES.
      pose proof (done_lt_users false p _ _ _ EK U NF) as DL. rewrite sumn_users, HC in DL. fold users in DL.
      assert (VAL : is_cnt st' p = (is_cnt st p + 1)%N) by (rewrite CN; unfold u32; apply N.mod_small; lia).
      destruct CASES as [(F & LT & PS)|(NF' & LE & PS)].
      + rewrite PS in ST. rewrite F in SD. destruct (ic_ph k); try congruence; cbn in SD; (split; [lia|]); intros y IY UY FY; right; lia.
      + rewrite PS in ST. split.
        { destruct (ic_ph k); try congruence; destruct (ic_ph k'); try congruence; cbn in SD; lia. }
        intros y IY UY FY. destruct (in_set _ _ _ _ _ ES IY) as [->|IY']; [congruence|]. destruct (HF _ IY' UY FY); [now left|right; lia].
    - rewrite CN. destruct (usesk false p k) eqn:U; cbn [andb] in SD.
      + destruct (LIM _ IN U) as (L1 & L2). rewrite (NB' eq_refl) in H.
        pose proof (done_lt_users false p _ _ _ EK U NF) as DL. rewrite sumn_users, HC in DL. fold users in DL.
        destruct (CASES eq_refl) as [(NF' & PS)|(F & _ & _)].
        * split; [destruct (ic_ph k); try congruence; destruct (ic_ph k'); try congruence; cbn in SD; lia|].
          intros y IY UY FY. destruct (in_set _ _ _ _ _ ES IY) as [->|IY']; [congruence|]. eauto.
        * destruct (own_end _ _ _ _ _ H EK ES U L2 ltac:(lia) CN F) as (Z & Q & PS). split.
          { rewrite F in SD. destruct (ic_ph k); try congruence; cbn in SD; lia. }
          intros y IY UY FY. destruct (in_set _ _ _ _ _ ES IY) as [->|IY']; [left; rewrite EC; auto|]. eauto.
      + split; [cbn in SD; lia|]. intros y IY UY FY. destruct (in_set _ _ _ _ _ ES IY) as [->|IY']; [congruence|]. eauto.
  Qed.

  Lemma binv_run sched : (forall i b c, In (i, b) sched -> nth_error cs i = Some c -> uses_ptr false p c = true -> b = false) ->
    forall st st', binv st -> iter_run st sched = Some st' -> binv st'.
  Proof.
    induction sched as [|[i b] sched IH]; intros NB st st' C H; cbn in H; [congruence|].
    destruct (iter_step st i b) as [st1|] eqn:E; [|discriminate]. eapply IH; [| |eauto].
    - intros; eapply NB; [right; eauto| |]; eauto.
    - eapply binv_step; [exact C| |exact E]. intros; eapply NB; [left; reflexivity| |]; eauto.
  Qed.
  Lemma binv_init : binv (iter_init cs).
  Proof.
    split; [apply cinv_init|]. split; [cbn [iter_init is_cnt]; lia|].
    intros k I U F. unfold iter_init in I. cbn in I. apply in_map_iff in I as (c & <- & _). discriminate.
  Qed.

  (** If all users end, all of them reached their own limits, or they fall short of the shared one by less than their number. *)
  Lemma both_end sched st : (forall i b c, In (i, b) sched -> nth_error cs i = Some c -> uses_ptr false p c = true -> b = false) ->
    iter_run (iter_init cs) sched = Some st ->
    (forall k, In k (is_cls st) -> usesk false p k = true -> ic_ph k = Finished) ->
    (forall k, In k (is_cls st) -> usesk false p k = true -> (0 < c_iter (ic_c k))%N /\ ic_n k = c_iter (ic_c k)) \/
    (n + 1 <= sumn (fun k => if usesk false p k then ic_n k else 0%N) (is_cls st) + N.of_nat (length users))%N.
  Proof.
    intros NB H ALL. destruct (binv_run _ NB _ _ binv_init H) as (HI & HE & HF). destruct HI as (HC & _ & _).
    destruct (N.lt_ge_cases n (is_cnt st p)) as [LT|LE].
    - right. pose proof (done_le_users false p (is_cls st)) as DL. rewrite sumn_users, HC in DL. fold users in DL.
      rewrite (sumn_ext _ took); [lia|]. intros k IK. unfold took. destruct (usesk false p k) eqn:U; [|reflexivity].
      unfold passes. rewrite (ALL _ IK U). lia.
    - left. intros k IK U. destruct (HF _ IK U (ALL _ IK U)); [assumption|lia].
  Qed.
End Both.

Section Alloc.
  Variables (ts : trxset) (ws : bool) (stage : N) (wl : list cgcfg) (qn tn : N) (w w' : wst)
    (out : list (list (list client))) (wl' : list cgcfg) (gs : list (list nat)).
  Hypotheses (HA : allocate ts ws stage wl qn tn w = Some (w', out)) (HG : groups ts wl = Some (wl', gs)).

  Lemma clients_both e g cg sched st : cg_at wl' gs e g = Some cg -> (0 < cg_iterClients cg)%N -> cg_iterExecGroup cg = 0%N ->
    (cg_iterClients cg + clients_in (one_group e g) (labelled out) < 2^32)%N ->
    (exists c, In (e, g, c) (labelled out)) ->
    undisturbed (one_group e g) (labelled out) sched -> clients_run out sched = Some st ->
    all_finished (one_group e g) (labelled out) (is_cls st) ->
    (forall j c k, nth_error (labelled out) j = Some (e, g, c) -> nth_error (is_cls st) j = Some k -> ic_n k = c_iter c) \/
    (cg_iterClients cg + 1 <= iterations (one_group e g) (labelled out) (is_cls st) + clients_in (one_group e g) (labelled out))%N.
  Proof.
    intros X L E0 B (c & I) UD R AF.
    destruct (group_ptr _ _ _ _ _ _ _ _ _ _ _ HA HG _ _ _ _ I X L) as (p & EP & K & U1 & U2). unfold clients_run in R.
    assert (SM : u32 (cg_iterClients cg) = cg_iterClients cg) by (apply u32_small; lia).
    assert (ONE : forall e' g', one_group e g e' g' = true -> e' = e /\ g' = g).
    { intros e' g' S. unfold one_group in S. apply andb_true_iff in S as [S1 S2]. apply Nat.eqb_eq in S1, S2. auto. }
    assert (CFG : forall e' g' c', In (e', g', c') (labelled out) -> uses_ptr false p c' = true -> c_iterClients c' = cg_iterClients cg /\ c_iterEg c' = 0%N).
    { intros e' g' c' I' U. destruct (ONE _ _ (U1 _ _ _ I' U)) as [-> ->].
      destruct (lab_cfg _ _ _ _ _ _ _ _ _ _ _ HA HG _ _ _ I') as (cg1 & X1 & A & _ & A' & _). assert (cg1 = cg) as -> by congruence.
      split; [congruence|]. rewrite A', E0. reflexivity. }
    pose proof (users_le (one_group e g) (uses_ptr false p) (labelled out) U1) as UL. fold (clients_in (one_group e g) (labelled out)) in UL.
    assert (NW : (cg_iterClients cg + N.of_nat (length (filter (uses_ptr false p) (map snd (labelled out)))) < 2^32)%N) by lia.
    pose proof (run_clients _ _ _ R) as RC.
    assert (UE : forall e' g' c' k, In (e', g', c') (labelled out) -> In k (is_cls st) -> ic_c k = c' -> usesk false p k = one_group e g e' g').
    { intros e' g' c' k I' IK <-. unfold usesk. destruct (uses_ptr false p (ic_c k)) eqn:U; [symmetry; eauto|].
      destruct (one_group e g e' g') eqn:S; auto. exfalso. specialize (U2 _ _ _ I' ltac:(lia) S). congruence. }
    rewrite (iterations_eq _ (usesk false p) _ _ RC UE).
    destruct (both_end p (cg_iterClients cg) (map snd (labelled out)) K) with (sched := sched) (st := st) as [Y|Y]; auto.
    - intros c' I' U. apply in_map_iff in I' as ([[e' g'] c''] & <- & I'). cbn [snd] in *. eauto.
    - intros i b c' IS Q U. rewrite nth_error_map in Q. destruct (nth_error (labelled out) i) as [[[e' g'] c'']|] eqn:EJ; [|discriminate].
      cbn in Q. injection Q as ->. eapply UD; eauto. apply (U1 _ _ _ (nth_error_In _ _ EJ) U).
    - intros k IK UK. apply In_nth_error in IK as [j IK].
      assert (Q : nth_error (map snd (labelled out)) j = Some (ic_c k)) by (rewrite <- RC; apply map_nth_error; auto).
      rewrite nth_error_map in Q. destruct (nth_error (labelled out) j) as [[[e' g'] c']|] eqn:EJ; [|discriminate]. cbn in Q.
      injection Q as ->. apply (AF _ _ _ _ _ EJ IK). apply nth_error_In in EJ, IK. rewrite <- (UE _ _ _ _ EJ IK eq_refl). exact UK.
    - left. intros j c' k J IK. assert (Q : nth_error (map ic_c (is_cls st)) j = Some (ic_c k)) by (apply map_nth_error; auto).
      rewrite RC, nth_error_map, J in Q. cbn in Q. injection Q as ->. apply (Y k (nth_error_In _ _ IK)).
      rewrite (UE _ _ _ _ (nth_error_In _ _ J) (nth_error_In _ _ IK) eq_refl). unfold one_group. now rewrite !Nat.eqb_refl.
    - right. lia.
  Qed.
End Alloc.

(** ** Any combination of the limits *)
Section Took.
  Variables (eg : bool) (p : nat) (M : N) (cs : list client).
  Hypothesis KIND : forall c, In c cs -> uses_ptr (negb eg) p c = false.
  Hypothesis LIM : forall c, In c cs -> uses_ptr eg p c = true -> (lim_of eg c <= M)%N.
  Hypothesis NOWRAP : (M + N.of_nat (length (filter (uses_ptr eg p) cs)) < 2^32)%N.

  Definition taken (k : icl) : N := if usesk eg p k then passes eg k else 0%N.
  Definition tinv (st : ist) : Prop :=
    cinv eg p M cs M st /\ (is_cnt st p <= sumn taken (is_cls st) + sumn (donek eg p) (is_cls st))%N.

  Lemma pass_back st i b st' k k' : iter_step st i b = Some st' -> nth_error (is_cls st) i = Some k -> set_nth (is_cls st) i k' = Some (is_cls st') ->
    ic_ph k' = Finished -> (passes eg k <= passes eg k' + 1)%N.
  Proof.
    clear. intros H EK ES F. unfold iter_step in H. rewrite EK in H.
    assert (X : forall cnt ph m, (match set_nth (is_cls st) i (ICl (ic_c k) ph m) with Some l => Some (ISt cnt l) | None => None end) = Some st' ->
        k' = ICl (ic_c k) ph m).
    { intros cnt ph m E. destruct (set_nth (is_cls st) i (ICl (ic_c k) ph m)) as [l|] eqn:ES'; [|discriminate]. injection E as <-. cbn [is_cls] in ES.
      exact (set_same _ _ _ _ _ _ EK ES ES'). }
    destruct (ic_ph k) eqn:EP; try discriminate.
    - destruct (shared_check _ _ _) as [cnt ret]. rewrite (X _ _ _ H) in *. unfold passes. rewrite EP, F. cbn [ic_n]. lia.
    - destruct (shared_check _ _ _) as [cnt ret]. rewrite (X _ _ _ H) in *. unfold passes. rewrite EP, F. cbn [ic_n]. destruct eg; lia.
    - destruct (_ && _)%bool; rewrite (X _ _ _ H) in *; [|discriminate]. unfold passes. rewrite EP, F. cbn [ic_n]. lia.
    - rewrite (X _ _ _ H) in *. unfold passes. rewrite EP, F. cbn [ic_n]. lia.
  Qed.

  Lemma tinv_step st i b st' : tinv st -> iter_step st i b = Some st' -> tinv st' /\ (is_cnt st p <= is_cnt st' p)%N.
  Proof.
    intros (HI & HE) H. pose proof (cinv_step eg p M cs KIND M LIM NOWRAP _ _ _ _ HI H) as HI'.
    destruct HI as (HC & HD & HP). destruct (step_cases eg p cs KIND _ _ _ _ HC H) as (k & k' & EK & ES & EC & CASES).
    pose proof (sumn_set taken _ _ _ _ _ EK ES) as ST. pose proof (sumn_set (donek eg p) _ _ _ _ _ EK ES) as SD.
    assert (UK : usesk eg p k' = usesk eg p k) by (unfold usesk; now rewrite EC).
    unfold taken at 2 4 in ST. unfold donek at 2 4 in SD. rewrite UK in *. unfold tinv. 
    destruct CASES as [(U & NF & CN & CASES)|(CN & NF & CASES)].
    - rewrite U in *. cbn [andb] in *.
      pose proof (done_lt_users eg p _ _ _ EK U NF) as DL. rewrite sumn_users, HC in DL.
      assert (VAL : is_cnt st' p = (is_cnt st p + 1)%N) by (rewrite CN; unfold u32; apply N.mod_small; lia).
      split; [split; [exact HI'|]|lia].
      destruct CASES as [(F & LT & PS)|(NF' & LE & PS)]; rewrite PS in ST.
      + rewrite F in SD. destruct (ic_ph k); try congruence; cbn in SD; lia.
      + destruct (ic_ph k); try congruence; destruct (ic_ph k'); try congruence; cbn in SD; lia.
    - split; [split; [exact HI'|]|lia]. rewrite CN. destruct (usesk eg p k) eqn:U; cbn [andb] in SD; [|cbn in SD; lia].
      destruct (CASES eq_refl) as [(NF' & PS)|(F & _ & _)].
      + destruct (ic_ph k); try congruence; destruct (ic_ph k'); try congruence; cbn in SD; lia.
      + pose proof (pass_back _ _ _ _ _ _ H EK ES F) as PB. rewrite F in SD. destruct (ic_ph k); try congruence; cbn in SD; lia.
  Qed.
  Lemma tinv_init : tinv (iter_init cs).
  Proof. split; [apply cinv_init|]. cbn [iter_init is_cnt]. lia. Qed.
  Lemma tinv_run sched : forall st st', tinv st -> iter_run st sched = Some st' -> tinv st'.
  Proof.
    induction sched as [|[i b] sched IH]; intros st st' C H; cbn in H; [congruence|].
    destruct (iter_step st i b) as [st1|] eqn:E; [|discriminate]. eapply IH; [|eauto]. exact (proj1 (tinv_step _ _ _ _ C E)).
  Qed.
  (** If the counter is beyond [n] when its users have ended, they began [n] iterations but for less than their number. *)
  Lemma taken_end sched st n : iter_run (iter_init cs) sched = Some st -> (forall k, In k (is_cls st) -> usesk eg p k = true -> ic_ph k = Finished) ->
    (n < is_cnt st p)%N -> (n + 1 <= sumn (fun k => if usesk eg p k then ic_n k else 0%N) (is_cls st) + N.of_nat (length (filter (uses_ptr eg p) cs)))%N.
  Proof.
    intros H ALL LT. destruct (tinv_run _ _ _ tinv_init H) as ((HC & _) & HE).
    pose proof (done_le_users eg p (is_cls st)) as DL. rewrite sumn_users, HC in DL.
    rewrite (sumn_ext _ taken); [lia|]. intros k IK. unfold taken. destruct (usesk eg p k) eqn:U; [|reflexivity].
    unfold passes. rewrite (ALL _ IK U). lia.
  Qed.
End Took.

(** Why client [j] ended. *)
Section Reason.
  Variables (cs : list client) (j : nat) (c : client).
  Hypothesis J : nth_error cs j = Some c.
  (** Its counters do not wrap. *)
  Definition good (eg : bool) (p : nat) : Prop := exists M : N, (forall c', In c' cs -> uses_ptr (negb eg) p c' = false) /\ (forall c', In c' cs -> uses_ptr eg p c' = true -> (lim_of eg c' <= M)%N) /\ (M + N.of_nat (length (filter (uses_ptr eg p) cs)) < 2^32)%N.
  Hypothesis GOOD : forall eg, (0 < lim_of eg c)%N -> exists p, ptr_of eg c = Some p /\ good eg p.

  Definition why (st : ist) : Prop := forall k, nth_error (is_cls st) j = Some k -> ic_c k = c /\ (ic_ph k = Finished ->
    ((0 < c_iter c)%N /\ ic_n k = c_iter c) \/ exists eg p, ptr_of eg c = Some p /\ (0 < lim_of eg c)%N /\ (lim_of eg c < is_cnt st p)%N).

  Lemma why_run sched : (forall b, In (j, b) sched -> b = false) -> forall st, iter_run (iter_init cs) sched = Some st -> why st.
  Proof.
    intros NB st H. enough (why st /\ forall eg p, good eg p -> exists M, tinv eg p M cs st /\ (forall c', In c' cs -> uses_ptr (negb eg) p c' = false) /\ (forall c', In c' cs -> uses_ptr eg p c' = true -> (lim_of eg c' <= M)%N) /\ (M + N.of_nat (length (filter (uses_ptr eg p) cs)) < 2^32)%N) by tauto.
    revert st NB H. induction sched as [|[i b] sched IH] using rev_ind; intros st NB H.
    - injection H as <-. split.
      + intros k K. cbn in K. rewrite nth_error_map, J in K. injection K as <-. split; [reflexivity|discriminate].
      + intros eg p (M & G1 & G2 & G3). exists M. split; [now apply tinv_init|split; [|split]; assumption].
    - assert (SP : exists st0, iter_run (iter_init cs) sched = Some st0 /\ iter_step st0 i b = Some st).
      { clear - H. revert H. generalize (iter_init cs) as s. induction sched as [|[i' b'] l IHl]; intros s H; cbn in H |- *.
        - destruct (iter_step s i b) as [s1|] eqn:X; [|discriminate]. exists s. split; [reflexivity|congruence].
        - destruct (iter_step s i' b') as [s1|]; [|discriminate]. eauto. }
      destruct SP as (st0 & R0 & S). destruct (IH st0) as (W & T); [intros b' I; apply NB, in_or_app; now left|exact R0|].
      assert (MONO : forall eg p, good eg p -> (is_cnt st0 p <= is_cnt st p)%N).
      { intros eg p G. destruct (T eg p G) as (M & TI & G1 & G2 & G3). exact (proj2 (tinv_step eg p M cs G1 G2 G3 _ _ _ _ TI S)). }
      split.
      + intros k K. destruct (Nat.eq_dec i j) as [->|NEq].
        * assert (b = false) as -> by (apply NB, in_or_app; right; now left). unfold iter_step in S.
          destruct (nth_error (is_cls st0) j) as [k0|] eqn:K0; [|discriminate]. destruct (W k0 K0) as (WC & WF).
          assert (X : forall cnt ph m, (match set_nth (is_cls st0) j (ICl (ic_c k0) ph m) with Some l => Some (ISt cnt l) | None => None end) = Some st ->
             is_cnt st = cnt /\ k = ICl (ic_c k0) ph m).
          { intros cnt ph m E. destruct (set_nth (is_cls st0) j (ICl (ic_c k0) ph m)) as [l|] eqn:ES'; [|discriminate]. injection E as <-. cbn [is_cls] in K.
            rewrite (nth_set_same _ _ _ _ ES') in K. split; [reflexivity|congruence]. }
          assert (SC : forall eg cnt ret, shared_check (is_cnt st0) (lim_of eg c) (ptr_of eg c) = (cnt, ret) -> ret = true -> is_cnt st = cnt ->
             exists p, ptr_of eg c = Some p /\ (0 < lim_of eg c)%N /\ (lim_of eg c < is_cnt st p)%N).
          { intros eg cnt ret Q RT Q2. unfold shared_check in Q. destruct (0 <? lim_of eg c)%N eqn:L0; [|congruence]. apply N.ltb_lt in L0.
            destruct (GOOD eg L0) as (p & EP & _). rewrite EP in Q. injection Q as <- <-. exists p. split; [exact EP|]. split; [exact L0|].
            rewrite Q2, natupd_same. now apply N.ltb_lt. }
          destruct (ic_ph k0) eqn:PH; try discriminate.
          -- destruct (shared_check (is_cnt st0) (c_iterEg (ic_c k0)) (c_iterEgPtr (ic_c k0))) as [cnt ret] eqn:Q. destruct (X _ _ _ S) as (Y & ->). cbn [ic_c ic_ph ic_n].
             split; [exact WC|]. destruct ret; [|discriminate]. intros _. right. rewrite WC in Q. destruct (SC true cnt true Q eq_refl Y) as (p & Z). eauto.
          -- destruct (shared_check (is_cnt st0) (c_iterClients (ic_c k0)) (c_iterClientsPtr (ic_c k0))) as [cnt ret] eqn:Q. destruct (X _ _ _ S) as (Y & ->). cbn [ic_c ic_ph ic_n].
             split; [exact WC|]. destruct ret; [|discriminate]. intros _. right. rewrite WC in Q. destruct (SC false cnt true Q eq_refl Y) as (p & Z). eauto.
          -- destruct ((0 <? c_iter (ic_c k0)) && (ic_n k0 =? c_iter (ic_c k0)))%N%bool eqn:LI; destruct (X _ _ _ S) as (Y & ->); cbn [ic_c ic_ph ic_n]; (split; [exact WC|]); [|discriminate].
             intros _. left. rewrite WC in LI. lia.
          -- destruct (X _ _ _ S) as (Y & ->). cbn [ic_c ic_ph ic_n]. split; [exact WC|discriminate].
        * assert (K0 : nth_error (is_cls st0) j = Some k).
          { unfold iter_step in S. destruct (nth_error (is_cls st0) i) as [k0|]; [|discriminate].
            assert (X : forall cnt x, (match set_nth (is_cls st0) i x with Some l => Some (ISt cnt l) | None => None end) = Some st -> nth_error (is_cls st0) j = Some k).
            { intros cnt x E. destruct (set_nth (is_cls st0) i x) as [l|] eqn:ES'; [|discriminate]. injection E as <-. cbn [is_cls] in K. now rewrite <- (nth_set_other _ _ _ _ _ ES') by congruence. }
            destruct (ic_ph k0); try discriminate; try (destruct (shared_check _ _ _)); eauto. destruct (_ && _)%bool; eauto. }
          destruct (W k K0) as (WC & WF). split; [exact WC|]. intros F. destruct (WF F) as [Z|(eg & p & Z1 & Z2 & Z3)]; [now left|]. right. exists eg, p. split; [exact Z1|]. split; [exact Z2|].
          destruct (GOOD eg Z2) as (p' & EP & G). rewrite Z1 in EP. injection EP as <-. specialize (MONO eg p G). lia.
      + intros eg p G. destruct (T eg p G) as (M & TI & G1 & G2 & G3). exists M. split; [exact (proj1 (tinv_step eg p M cs G1 G2 G3 _ _ _ _ TI S))|split; [|split]; assumption].
  Qed.
End Reason.

Lemma iterations_ge sel (u : icl -> bool) : forall ls ks, map ic_c ks = map snd ls ->
  (forall e g c k, In (e, g, c) ls -> In k ks -> ic_c k = c -> u k = true -> sel e g = true) ->
  (sumn (fun k => if u k then ic_n k else 0%N) ks <= iterations sel ls ks)%N.
Proof.
  induction ls as [|[[e g] c] ls IH]; intros [|k ks] M H; cbn in *; try discriminate; try lia.
  injection M as M0 M1. specialize (IH ks M1 ltac:(intros; eapply H; eauto)).
  specialize (H e g c k (or_introl eq_refl) (or_introl eq_refl) M0). destruct (u k); [rewrite (H eq_refl)|destruct (sel e g)]; lia.
Qed.

Section Limits.
  Variables (ts : trxset) (ws : bool) (stage : N) (wl : list cgcfg) (qn tn : N) (w w' : wst)
    (out : list (list (list client))) (wl' : list cgcfg) (gs : list (list nat)).
  Hypotheses (HA : allocate ts ws stage wl qn tn w = Some (w', out)) (HG : groups ts wl = Some (wl', gs)).

  Lemma client_reason e n sched st :
    (forall g cg, cg_at wl' gs e g = Some cg -> (0 < cg_iterClients cg)%N -> (cg_iterClients cg + clients_in (one_group e g) (labelled out) < 2^32)%N) ->
    (forall g cg, cg_at wl' gs e g = Some cg -> (cg_iterExecGroup cg <= n)%N) -> (n + clients_in (exec_group e) (labelled out) < 2^32)%N ->
    undisturbed (exec_group e) (labelled out) sched -> clients_run out sched = Some st -> all_finished (exec_group e) (labelled out) (is_cls st) ->
    forall j g c k cg, nth_error (labelled out) j = Some (e, g, c) -> nth_error (is_cls st) j = Some k -> cg_at wl' gs e g = Some cg ->
    ((0 < c_iter c)%N /\ ic_n k = c_iter c) \/
    ((0 < cg_iterClients cg)%N /\ (cg_iterClients cg + 1 <= iterations (one_group e g) (labelled out) (is_cls st) + clients_in (one_group e g) (labelled out))%N) \/
    ((0 < cg_iterExecGroup cg)%N /\ (cg_iterExecGroup cg + 1 <= iterations (exec_group e) (labelled out) (is_cls st) + clients_in (exec_group e) (labelled out))%N).
  Proof.
    intros FC FX FN UD R AF j g c k cg J K X. unfold clients_run in R. pose proof (run_clients _ _ _ R) as RC.
    assert (I : In (e, g, c) (labelled out)) by exact (nth_error_In _ _ J).
    destruct (lab_cfg _ _ _ _ _ _ _ _ _ _ _ HA HG _ _ _ I) as (cg1 & X1 & A1 & B1 & A2 & B2). assert (cg1 = cg) as -> by congruence.
    pose proof (FX _ _ X) as LX.
    assert (SX : u32 (cg_iterExecGroup cg) = cg_iterExecGroup cg) by (apply u32_small; lia).
    assert (GX : (0 < cg_iterExecGroup cg)%N -> exists p, c_iterEgPtr c = Some p /\
      (forall c', In c' (map snd (labelled out)) -> uses_ptr false p c' = false) /\
      (forall e' g' c', In (e', g', c') (labelled out) -> uses_ptr true p c' = true -> exec_group e e' g' = true)).
    { intros L. destruct (eg_ptr _ _ _ _ _ _ _ _ _ _ _ HA HG _ _ _ _ I X L) as (p & P1 & P2 & P3 & _). eauto. }
    assert (GC : (0 < cg_iterClients cg)%N -> exists p, c_iterClientsPtr c = Some p /\
      (forall c', In c' (map snd (labelled out)) -> uses_ptr true p c' = false) /\
      (forall e' g' c', In (e', g', c') (labelled out) -> uses_ptr false p c' = true -> one_group e g e' g' = true)).
    { intros L. destruct (group_ptr _ _ _ _ _ _ _ _ _ _ _ HA HG _ _ _ _ I X L) as (p & P1 & P2 & P3 & _). eauto. }
    assert (ONE : forall e' g', one_group e g e' g' = true -> e' = e /\ g' = g).
    { intros e' g' S. unfold one_group in S. apply andb_true_iff in S as [S1 S2]. apply Nat.eqb_eq in S1, S2. auto. }
    assert (EXE : forall e' g', exec_group e e' g' = true -> e' = e).
    { intros e' g' S. unfold exec_group in S. apply Nat.eqb_eq in S. auto. }
    assert (LMX : forall p, (forall e' g' c', In (e', g', c') (labelled out) -> uses_ptr true p c' = true -> exec_group e e' g' = true) ->
       forall c', In c' (map snd (labelled out)) -> uses_ptr true p c' = true -> (lim_of true c' <= n)%N).
    { intros p P3 c' I' U. apply in_map_iff in I' as ([[e' g'] c''] & <- & I'). cbn [snd] in *. pose proof (EXE _ _ (P3 _ _ _ I' U)) as ->.
      destruct (lab_cfg _ _ _ _ _ _ _ _ _ _ _ HA HG _ _ _ I') as (cg2 & X2 & _ & _ & Q & _). cbn [lim_of]. rewrite Q. pose proof (FX _ _ X2). rewrite u32_small by lia. lia. }
    assert (LMC : forall p, (0 < cg_iterClients cg)%N -> (forall e' g' c', In (e', g', c') (labelled out) -> uses_ptr false p c' = true -> one_group e g e' g' = true) ->
       forall c', In c' (map snd (labelled out)) -> uses_ptr false p c' = true -> (lim_of false c' <= cg_iterClients cg)%N).
    { intros p L P3 c' I' U. apply in_map_iff in I' as ([[e' g'] c''] & <- & I'). cbn [snd] in *. destruct (ONE _ _ (P3 _ _ _ I' U)) as [-> ->].
      destruct (lab_cfg _ _ _ _ _ _ _ _ _ _ _ HA HG _ _ _ I') as (cg2 & X2 & Q & _). assert (cg2 = cg) as -> by congruence. cbn [lim_of]. rewrite Q.
      pose proof (FC _ _ X L). rewrite u32_small by lia. lia. }
    assert (LL : forall eg, (0 < lim_of eg c)%N -> if eg then (0 < cg_iterExecGroup cg)%N /\ lim_of eg c = cg_iterExecGroup cg else (0 < cg_iterClients cg)%N /\ lim_of eg c = cg_iterClients cg).
    { intros [|] L; cbn [lim_of] in *; [rewrite A2 in *; lia|]. rewrite A1 in *. assert (NZ : (0 < cg_iterClients cg)%N).
      { destruct (cg_iterClients cg); [cbn in L; lia|lia]. }
      split; [exact NZ|]. apply u32_small. pose proof (FC _ _ X NZ). lia. }
    assert (FIN : forall x, In x (is_cls st) -> exists e' g', In (e', g', ic_c x) (labelled out) /\ (e' = e -> ic_ph x = Finished)).
    { intros x IX. apply In_nth_error in IX as [i IX]. assert (Q : nth_error (map snd (labelled out)) i = Some (ic_c x)) by (rewrite <- RC; apply map_nth_error; auto).
      rewrite nth_error_map in Q. destruct (nth_error (labelled out) i) as [[[e' g'] c']|] eqn:EJ; [|discriminate]. cbn in Q. injection Q as ->.
      exists e', g'. split; [exact (nth_error_In _ _ EJ)|]. intros ->. apply (AF _ _ _ _ _ EJ IX). unfold exec_group. apply Nat.eqb_refl. }
    assert (W : why j c st).
    { refine (why_run (map snd (labelled out)) j c _ _ sched _ st R).
      - rewrite nth_error_map, J. reflexivity.
      - intros eg L. specialize (LL eg L). destruct eg; destruct LL as (LZ & LE).
        + destruct (GX LZ) as (p & P1 & P2 & P3). exists p. split; [exact P1|]. exists n. split; [exact P2|]. split; [exact (LMX p P3)|].
          pose proof (users_le (exec_group e) (uses_ptr true p) (labelled out) P3). lia.
        + destruct (GC LZ) as (p & P1 & P2 & P3). exists p. split; [exact P1|]. exists (cg_iterClients cg). split; [exact P2|]. split; [exact (LMC p LZ P3)|].
          pose proof (users_le (one_group e g) (uses_ptr false p) (labelled out) P3). pose proof (FC _ _ X LZ). lia.
      - intros b IB. eapply UD; eauto. unfold exec_group. apply Nat.eqb_refl. }
    destruct (W k K) as (_ & WF). assert (F : ic_ph k = Finished) by (eapply AF; eauto; unfold exec_group; apply Nat.eqb_refl).
    destruct (WF F) as [Z|(eg & p & Z1 & Z2 & Z3)]; [now left|]. right. specialize (LL eg Z2). destruct eg; destruct LL as (LZ & LE); cbn [ptr_of] in Z1.
    - right. split; [exact LZ|]. destruct (GX LZ) as (p' & P1 & P2 & P3). assert (p' = p) as -> by congruence.
      pose proof (users_le (exec_group e) (uses_ptr true p) (labelled out) P3) as UL.
      pose proof (taken_end true p n (map snd (labelled out)) P2 (LMX p P3) ltac:(lia) sched st (cg_iterExecGroup cg) R) as T.
      pose proof (iterations_ge (exec_group e) (usesk true p) (labelled out) (is_cls st) RC) as G.
      specialize (G ltac:(intros e' g' c' x I' _ <- U; exact (P3 _ _ _ I' U))).
      enough ((cg_iterExecGroup cg + 1 <= sumn (fun k => if usesk true p k then ic_n k else 0%N) (is_cls st) + N.of_nat (length (filter (uses_ptr true p) (map snd (labelled out)))))%N) by lia.
      apply T; [|lia]. intros x IX U. destruct (FIN x IX) as (e' & g' & I' & FF). apply FF. exact (EXE _ _ (P3 _ _ _ I' U)).
    - left. split; [exact LZ|]. destruct (GC LZ) as (p' & P1 & P2 & P3). assert (p' = p) as -> by congruence.
      pose proof (users_le (one_group e g) (uses_ptr false p) (labelled out) P3) as UL. pose proof (FC _ _ X LZ) as FIT.
      pose proof (taken_end false p (cg_iterClients cg) (map snd (labelled out)) P2 (LMC p LZ P3) ltac:(lia) sched st (cg_iterClients cg) R) as T.
      pose proof (iterations_ge (one_group e g) (usesk false p) (labelled out) (is_cls st) RC) as G.
      specialize (G ltac:(intros e' g' c' x I' _ <- U; exact (P3 _ _ _ I' U))).
      enough ((cg_iterClients cg + 1 <= sumn (fun k => if usesk false p k then ic_n k else 0%N) (is_cls st) + N.of_nat (length (filter (uses_ptr false p) (map snd (labelled out)))))%N) by lia.
      apply T; [|lia]. intros x IX U. destruct (FIN x IX) as (e' & g' & I' & FF). apply FF. exact (proj1 (ONE _ _ (P3 _ _ _ I' U))).
  Qed.
End Limits.
