(** Proofs about iteration limits. *)
From Verif Require Import Prelude ListAux ScopeModel StmtModel WorkloadModel IterModel.
From Verif Require Import LimitProofs.

(** Sum of [f] over a list. *)
Fixpoint sumn {A} (f : A -> N) (l : list A) : N :=
  match l with [] => 0%N | a :: l' => (f a + sumn f l')%N end.

Lemma sumn_set {A} (f : A -> N) : forall l i x l' a, nth_error l i = Some a -> set_nth l i x = Some l' ->
  (sumn f l' + f a = sumn f l + f x)%N.
Proof.
  induction l as [|b l IH]; intros [|i] x l' a H E; cbn in *; try discriminate.
  - injection H as ->. injection E as <-. cbn. lia.
  - destruct (set_nth l i x) as [l1|] eqn:E1; [|discriminate]. injection E as <-. cbn. specialize (IH _ _ _ _ H E1). lia.
Qed.
Lemma sumn_le {A} (f g : A -> N) l : (forall a, In a l -> (f a <= g a)%N) -> (sumn f l <= sumn g l)%N.
Proof. induction l as [|a l IH]; cbn; intros H; [lia|]. pose proof (H a (or_introl eq_refl)). specialize (IH ltac:(auto)). lia. Qed.
Lemma sumn_zero {A} (f : A -> N) l : (forall a, In a l -> f a = 0%N) -> sumn f l = 0%N.
Proof. induction l as [|a l IH]; cbn; intros H; auto. rewrite H, IH; auto. Qed.
Lemma sumn_ext {A} (f g : A -> N) l : (forall a, In a l -> f a = g a) -> sumn f l = sumn g l.
Proof. induction l as [|a l IH]; cbn; intros H; auto. rewrite H, IH; auto. Qed.
Lemma sumn_map {A B} (h : A -> B) (f : B -> N) l : sumn f (map h l) = sumn (fun a => f (h a)) l.
Proof. induction l; cbn; auto. now rewrite IHl. Qed.
Lemma sumn_set_map {A B} (h : A -> B) : forall l i x l' a, nth_error l i = Some a -> set_nth l i x = Some l' -> h x = h a -> map h l' = map h l.
Proof.
  induction l as [|b l IH]; intros [|i] x l' a H E Q; cbn in *; try discriminate.
  - injection H as ->. injection E as <-. cbn. congruence.
  - destruct (set_nth l i x) as [l1|] eqn:E1; [|discriminate]. injection E as <-. cbn. f_equal. eauto.
Qed.

(** The limit and counter of a client at exec group level ([true]) or client group level. *)
Definition lim_of (eg : bool) (c : client) : N := if eg then c_iterEg c else c_iterClients c.
Definition ptr_of (eg : bool) (c : client) : option nat := if eg then c_iterEgPtr c else c_iterClientsPtr c.

Definition uses_ptr (eg : bool) (p : nat) (c : client) : bool :=
  ((0 <? lim_of eg c)%N && match ptr_of eg c with Some q => Nat.eqb p q | None => false end)%bool.

Definition oneif (b : bool) : N := if b then 1%N else 0%N.

(** Times the client passed the check. *)
Definition passes (eg : bool) (k : icl) : N :=
  (ic_n k + match ic_ph k with
            | AtIter => 1
            | AtClients => if eg then 1 else 0
            | _ => 0
            end)%N.

Section Counter.
  Variables (eg : bool) (p : nat) (n : N) (cs : list client).
  Let users := filter (uses_ptr eg p) cs.
  (** [p] is the counter of one kind only *)
  Hypothesis KIND : forall c, In c cs -> uses_ptr (negb eg) p c = false.
  Variable M : N.
  Hypothesis LIM : forall c, In c cs -> uses_ptr eg p c = true -> (lim_of eg c <= M)%N.
  Hypothesis NOWRAP : (M + N.of_nat (length users) < 2^32)%N.

  Definition usesk (k : icl) : bool := uses_ptr eg p (ic_c k).
  Definition donek (k : icl) : N :=
    oneif (usesk k && match ic_ph k with Finished => true | _ => false end).
  Definition passk (k : icl) : N := if (usesk k && (lim_of eg (ic_c k) <=? n)%N)%bool then passes eg k else 0%N.

  Lemma sumn_users l : sumn (fun k => oneif (usesk k)) l = N.of_nat (length (filter (uses_ptr eg p) (map ic_c l))).
  Proof.
    clear KIND LIM NOWRAP M users. induction l as [|k l IH]; cbn; auto. unfold usesk in *. destruct (uses_ptr eg p (ic_c k)); cbn; rewrite IH; lia.
  Qed.

  (** What one step does to client [i] and counter [p]. *)
  Definition check_step (st : ist) (k : icl) (st' : ist) (k' : icl) : Prop :=
    usesk k = true /\ ic_ph k <> Finished /\ is_cnt st' p = u32 (is_cnt st p + 1) /\
    ((ic_ph k' = Finished /\ (lim_of eg (ic_c k) < is_cnt st' p)%N /\ passes eg k' = passes eg k) \/
     (ic_ph k' <> Finished /\ (is_cnt st' p <= lim_of eg (ic_c k))%N /\ passes eg k' = (passes eg k + 1)%N)).
  Definition other_step (stop : bool) (st : ist) (k : icl) (st' : ist) (k' : icl) : Prop :=
    is_cnt st' p = is_cnt st p /\ ic_ph k <> Finished /\
    (usesk k = true -> (ic_ph k' <> Finished /\ passes eg k' = passes eg k) \/ (ic_ph k' = Finished /\ (passes eg k' <= passes eg k)%N /\
       ((0 < lim_of (negb eg) (ic_c k))%N \/ (0 < c_iter (ic_c k))%N \/ stop = true))).

  Lemma step_cases st i stop st' : map ic_c (is_cls st) = cs -> iter_step st i stop = Some st' ->
    exists k k', nth_error (is_cls st) i = Some k /\ set_nth (is_cls st) i k' = Some (is_cls st') /\
      ic_c k' = ic_c k /\ (check_step st k st' k' \/ other_step stop st k st' k').
  Proof.
    clear LIM NOWRAP M users. intros HC H. unfold iter_step in H. destruct (nth_error (is_cls st) i) as [k|] eqn:EK; [|discriminate].
    assert (IN : In (ic_c k) cs) by (rewrite <- HC; apply in_map, (nth_error_In _ _ EK)).
    specialize (KIND _ IN).
    assert (X : forall cnt ph m, (match set_nth (is_cls st) i (ICl (ic_c k) ph m) with Some l => Some (ISt cnt l) | None => None end) = Some st' ->
        (check_step st k st' (ICl (ic_c k) ph m) \/ other_step stop st k st' (ICl (ic_c k) ph m)) ->
        exists k0 k', Some k = Some k0 /\ set_nth (is_cls st) i k' = Some (is_cls st') /\ ic_c k' = ic_c k0 /\
          (check_step st k0 st' k' \/ other_step stop st k0 st' k')).
    { intros cnt ph m E C. destruct (set_nth (is_cls st) i (ICl (ic_c k) ph m)) as [l|] eqn:ES; [|discriminate].
      exists k, (ICl (ic_c k) ph m). split; auto. injection E as <-. cbn [is_cls]. auto. }
    assert (Y : forall cnt ph m, (match set_nth (is_cls st) i (ICl (ic_c k) ph m) with Some l => Some (ISt cnt l) | None => None end) = Some st' ->
        is_cnt st' = cnt).
    { intros cnt ph m E. destruct (set_nth (is_cls st) i (ICl (ic_c k) ph m)) as [l|] eqn:ES; [|discriminate]. now injection E as <-. }
    destruct (ic_ph k) eqn:EP; try discriminate.
    - (* AtEg *)
      unfold shared_check in H.
      destruct (0 <? c_iterEg (ic_c k))%N eqn:L0.
      2:{ apply (X _ _ _ H). right. unfold other_step, passes, usesk, uses_ptr. rewrite EP, (Y _ _ _ H). cbn [ic_ph ic_n lim_of].
          split; auto. split; [discriminate|]. destruct eg; cbn [lim_of]; [rewrite L0; discriminate|]. left. split; [discriminate|lia]. }
      destruct (c_iterEgPtr (ic_c k)) as [q|] eqn:EQ.
      2:{ apply (X _ _ _ H). right. unfold other_step, passes, usesk, uses_ptr. rewrite EP, (Y _ _ _ H). cbn [ic_ph ic_n lim_of].
          split; auto. split; [discriminate|]. destruct eg; cbn [lim_of ptr_of negb]; rewrite ?EQ, ?andb_false_r; try discriminate; intros _; right; split; auto; split; [lia|]; left; lia. }
      apply (X _ _ _ H). unfold uses_ptr in KIND. destruct eg eqn:EE.
      + destruct (Nat.eqb p q) eqn:PQ.
        * left. apply Nat.eqb_eq in PQ. subst q. unfold check_step, usesk, uses_ptr, passes. rewrite ?EE. cbn [lim_of ptr_of]. rewrite L0, EQ, EP, Nat.eqb_refl.
          rewrite (Y _ _ _ H), natupd_same. split; auto. split; [discriminate|]. split; auto. cbn [ic_ph ic_n].
          destruct (c_iterEg (ic_c k) <? u32 (is_cnt st p + 1))%N eqn:LT; [left|right].
          -- split; auto. split; lia.
          -- split; [discriminate|]. split; lia.
        * right. unfold other_step, usesk, uses_ptr. rewrite ?EE. cbn [lim_of ptr_of]. rewrite L0, EQ, PQ, EP, (Y _ _ _ H).
          apply Nat.eqb_neq in PQ. rewrite natupd_other by auto. split; auto. split; [discriminate|]. cbn. discriminate.
      + cbn [negb lim_of ptr_of] in KIND. rewrite L0, EQ in KIND. cbn [andb] in KIND. apply Nat.eqb_neq in KIND.
        right. unfold other_step, passes. rewrite ?EE, EP, (Y _ _ _ H), natupd_other by auto. split; auto. split; [discriminate|].
        intros _. cbn [ic_ph ic_n]. destruct (c_iterEg (ic_c k) <? u32 (is_cnt st q + 1))%N; [right|left]; (split; [auto; discriminate|]); [split; [lia|]; left; cbn [negb lim_of]; lia|lia].
    - (* AtClients *)
      unfold shared_check in H.
      destruct (0 <? c_iterClients (ic_c k))%N eqn:L0.
      2:{ apply (X _ _ _ H). right. unfold other_step, passes, usesk, uses_ptr. rewrite EP, (Y _ _ _ H). cbn [ic_ph ic_n lim_of].
          split; auto. split; [discriminate|]. destruct eg; cbn [lim_of]; [left; split; [discriminate|lia]|rewrite L0; discriminate]. }
      destruct (c_iterClientsPtr (ic_c k)) as [q|] eqn:EQ.
      2:{ apply (X _ _ _ H). right. unfold other_step, passes, usesk, uses_ptr. rewrite EP, (Y _ _ _ H). cbn [ic_ph ic_n lim_of].
          split; auto. split; [discriminate|]. destruct eg; cbn [lim_of ptr_of negb]; rewrite ?EQ, ?andb_false_r; try discriminate; intros _; right; split; auto; split; [lia|]; left; lia. }
      apply (X _ _ _ H). unfold uses_ptr in KIND. destruct eg eqn:EE.
      + cbn [negb lim_of ptr_of] in KIND. rewrite L0, EQ in KIND. cbn [andb] in KIND. apply Nat.eqb_neq in KIND.
        right. unfold other_step, passes. rewrite ?EE, EP, (Y _ _ _ H), natupd_other by auto. split; auto. split; [discriminate|].
        intros _. cbn [ic_ph ic_n]. destruct (c_iterClients (ic_c k) <? u32 (is_cnt st q + 1))%N; [right|left]; (split; [auto; discriminate|]); [split; [lia|]; left; cbn [negb lim_of]; lia|lia].
      + destruct (Nat.eqb p q) eqn:PQ.
        * left. apply Nat.eqb_eq in PQ. subst q. unfold check_step, usesk, uses_ptr, passes. rewrite ?EE. cbn [lim_of ptr_of]. rewrite L0, EQ, EP, Nat.eqb_refl.
          rewrite (Y _ _ _ H), natupd_same. split; auto. split; [discriminate|]. split; auto. cbn [ic_ph ic_n].
          destruct (c_iterClients (ic_c k) <? u32 (is_cnt st p + 1))%N eqn:LT; [left|right].
          -- split; auto. split; lia.
          -- split; [discriminate|]. split; lia.
        * right. unfold other_step, usesk, uses_ptr. rewrite ?EE. cbn [lim_of ptr_of]. rewrite L0, EQ, PQ, EP, (Y _ _ _ H).
          apply Nat.eqb_neq in PQ. rewrite natupd_other by auto. split; auto. split; [discriminate|]. cbn. discriminate.
    - (* AtIter *)
      destruct ((0 <? c_iter (ic_c k)) && (ic_n k =? c_iter (ic_c k)))%N%bool eqn:LI; apply (X _ _ _ H); right;
        unfold other_step, passes; rewrite EP, (Y _ _ _ H); cbn [ic_ph ic_n]; (split; auto; split; [discriminate|]; intros _).
      + right. split; auto. split; [lia|]. right. left. lia.
      + left. split; [discriminate|lia].
    - (* Running *)
      apply (X _ _ _ H). right. unfold other_step, passes. rewrite EP, (Y _ _ _ H). cbn [ic_ph ic_n lim_of]. split; auto. split; [discriminate|]. intros _.
      destruct stop; [right|left]; (split; [auto; discriminate|]); [split; [lia|]; auto|lia].
  Qed.

  Definition cinv (st : ist) : Prop :=
    map ic_c (is_cls st) = cs /\
    (is_cnt st p <= M + sumn donek (is_cls st))%N /\
    (sumn passk (is_cls st) <= N.min (is_cnt st p) n)%N.

  Lemma done_le_users l : (sumn donek l <= sumn (fun k => oneif (usesk k)) l)%N.
  Proof. clear KIND LIM NOWRAP M users. apply sumn_le. intros k _. unfold donek. destruct (usesk k), (ic_ph k); cbn; lia. Qed.

  Lemma done_lt_users l i k : nth_error l i = Some k -> usesk k = true -> ic_ph k <> Finished ->
    (sumn donek l + 1 <= sumn (fun k => oneif (usesk k)) l)%N.
  Proof.
    clear KIND LIM NOWRAP M users. revert i. induction l as [|a l IH]; intros [|i] H U P; cbn in H; try discriminate.
    - injection H as ->. cbn. pose proof (done_le_users l). unfold donek at 1. rewrite U. destruct (ic_ph k); cbn; try lia. congruence.
    - cbn. specialize (IH _ H U P). assert (donek a <= oneif (usesk a))%N by (unfold donek; destruct (usesk a), (ic_ph a); cbn; lia). lia.
  Qed.

  Lemma cinv_step st i stop st' : cinv st -> iter_step st i stop = Some st' -> cinv st'.
  Proof.
    intros (HC & HD & HP) H. destruct (step_cases _ _ _ _ HC H) as (k & k' & EK & ES & EC & CASES).
    assert (HC' : map ic_c (is_cls st') = cs) by (rewrite <- HC; eapply sumn_set_map; eauto).
    split; auto.
    pose proof (sumn_set donek _ _ _ _ _ EK ES) as SD. pose proof (sumn_set passk _ _ _ _ _ EK ES) as SP.
    assert (UK : usesk k' = usesk k) by (unfold usesk; now rewrite EC).
    unfold donek at 2 4 in SD. unfold passk at 2 4 in SP. rewrite UK, EC in *.
    destruct CASES as [(U & NF & CN & CASES)|(CN & NF & CASES)].
    - rewrite U in *. cbn [andb] in *.
      pose proof (done_lt_users _ _ _ EK U NF) as DL. rewrite sumn_users, HC in DL. fold users in DL.
      assert (VAL : is_cnt st' p = (is_cnt st p + 1)%N).
      { rewrite CN. unfold u32. apply N.mod_small. lia. }
      destruct CASES as [(F & LT & PS)|(NF' & LE & PS)].
      + rewrite F in SD. cbn in SD. destruct (ic_ph k); try congruence; cbn in SD; rewrite PS in SP; split; try lia;
          destruct (lim_of eg (ic_c k) <=? n)%N; lia.
      + assert (LM : (lim_of eg (ic_c k) <= M)%N) by (apply LIM; auto; rewrite <- HC; apply in_map, (nth_error_In _ _ EK)).
        split; [lia|]. rewrite PS in SP. destruct (lim_of eg (ic_c k) <=? n)%N eqn:LN; lia.
    - assert (DD : (oneif (usesk k && match ic_ph k with Finished => true | _ => false end) = 0)%N).
      { destruct (usesk k), (ic_ph k); cbn; congruence. }
      rewrite DD in SD. rewrite CN. split; [lia|].
      destruct (usesk k) eqn:U; cbn [andb] in SP; [|lia].
      destruct (CASES eq_refl) as [(_ & PS)|(_ & PS & _)]; destruct (lim_of eg (ic_c k) <=? n)%N; lia.
  Qed.

  Lemma cinv_init : cinv (iter_init cs).
  Proof.
    clear KIND LIM NOWRAP users. unfold cinv, iter_init. cbn [is_cls is_cnt]. rewrite map_map. cbn. rewrite map_id. split; auto. split; [lia|].
    rewrite sumn_map. rewrite sumn_zero; [lia|]. intros c _. unfold passk, passes. cbn. destruct (_ && _)%bool; auto.
  Qed.

  Lemma cinv_run sched : forall st st', cinv st -> iter_run st sched = Some st' -> cinv st'.
  Proof.
    induction sched as [|[i b] sched IH]; intros st st' C H; cbn in H; [congruence|].
    destruct (iter_step st i b) as [st1|] eqn:E; [|discriminate]. eapply IH; [|eauto]. eapply cinv_step; eauto.
  Qed.

  (** The iterations of the users of the counter whose limit is at most [n]. *)
  Lemma counter_bound sched st : iter_run (iter_init cs) sched = Some st ->
    (sumn (fun k => if usesk k && (lim_of eg (ic_c k) <=? n)%N then ic_n k else 0)%bool%N (is_cls st) <= n)%N.
  Proof.
    intros H. destruct (cinv_run _ _ _ cinv_init H) as (_ & _ & HP).
    etransitivity; [|etransitivity; [exact HP|lia]]. apply sumn_le. intros k _. unfold passk, passes.
    destruct (_ && _)%bool; lia.
  Qed.
End Counter.

(* ------------------------------------------------------------------------------------ *)
(** * Exactly the limit *)
Section Exact.
  Variables (eg : bool) (p : nat) (n : N) (cs : list client).
  Let users := filter (uses_ptr eg p) cs.
  Hypothesis KIND : forall c, In c cs -> uses_ptr (negb eg) p c = false.
  Hypothesis LIM : forall c, In c cs -> uses_ptr eg p c = true ->
    lim_of eg c = n /\ lim_of (negb eg) c = 0%N /\ c_iter c = 0%N.
  Hypothesis NOWRAP : (n + N.of_nat (length users) < 2^32)%N.

  Let LIM' : forall c, In c cs -> uses_ptr eg p c = true -> (lim_of eg c <= n)%N.
  Proof. intros c I U. destruct (LIM _ I U). lia. Qed.

  Definition einv (st : ist) : Prop :=
    cinv eg p n cs n st /\ sumn (passk eg p n) (is_cls st) = N.min (is_cnt st p) n /\
    (forall k, In k (is_cls st) -> usesk eg p k = true -> ic_ph k = Finished -> (n < is_cnt st p)%N).

  Lemma in_set {A} (l : list A) i x l' y : set_nth l i x = Some l' -> In y l' -> y = x \/ In y l.
  Proof.
    revert i l'. induction l as [|a l IH]; intros [|i] l' E I; cbn in E; try discriminate.
    - injection E as <-. destruct I as [<-|I]; cbn; auto.
    - destruct (set_nth l i x) as [l1|] eqn:E1; [|discriminate]. injection E as <-. destruct I as [<-|I]; cbn; auto.
      destruct (IH _ _ E1 I); auto.
  Qed.

  Lemma einv_step st i b st' : einv st -> (forall c, nth_error cs i = Some c -> uses_ptr eg p c = true -> b = false) ->
    iter_step st i b = Some st' -> einv st'.
  Proof.
    intros (HI & HE & HF) NB H. pose proof (cinv_step eg p n cs KIND n LIM' NOWRAP _ _ _ _ HI H) as HI'.
    destruct HI as (HC & HD & HP). destruct (step_cases eg p cs KIND _ _ _ _ HC H) as (k & k' & EK & ES & EC & CASES).
    split; auto.
    pose proof (sumn_set (passk eg p n) _ _ _ _ _ EK ES) as SP.
    assert (IN : In (ic_c k) cs) by (rewrite <- HC; apply in_map, (nth_error_In _ _ EK)).
    assert (UK : usesk eg p k' = usesk eg p k) by (unfold usesk; now rewrite EC).
    assert (NB' : usesk eg p k = true -> b = false).
    { intros U. apply (NB (ic_c k)); [|exact U]. rewrite <- HC. now apply map_nth_error. }
    unfold passk at 2 4 in SP. rewrite UK, EC in *.
    destruct CASES as [(U & NF & CN & CASES)|(CN & NF & CASES)].
    - rewrite U in *. cbn [andb] in *. destruct (LIM _ IN U) as (L1 & L2 & L3). rewrite L1 in *. rewrite N.leb_refl in SP.
      pose proof (done_lt_users eg p _ _ _ EK U NF) as DL. rewrite sumn_users, HC in DL. fold users in DL.
      assert (VAL : is_cnt st' p = (is_cnt st p + 1)%N) by (rewrite CN; unfold u32; apply N.mod_small; lia).
      destruct CASES as [(F & LT & PS)|(NF' & LE & PS)].
      + rewrite PS in SP. split; [lia|]. intros y IY UY FY. lia.
      + rewrite PS in SP. split; [lia|]. intros y IY UY FY. destruct (in_set _ _ _ _ _ ES IY) as [->|IY']; [congruence|].
        specialize (HF _ IY' UY FY). lia.
    - rewrite CN. destruct (usesk eg p k) eqn:U; cbn [andb] in SP.
      + destruct (LIM _ IN U) as (L1 & L2 & L3). rewrite L1, N.leb_refl in SP.
        destruct (CASES eq_refl) as [(NF' & PS)|(F & _ & R)]; [|exfalso; specialize (NB' eq_refl); destruct R as [R|[R|R]]; [lia|lia|congruence]].
        split; [lia|]. intros y IY UY FY. destruct (in_set _ _ _ _ _ ES IY) as [->|IY']; [congruence|]. eauto.
      + split; [lia|]. intros y IY UY FY. destruct (in_set _ _ _ _ _ ES IY) as [->|IY']; [congruence|]. eauto.
  Qed.

  Lemma einv_run sched : (forall i b c, In (i, b) sched -> nth_error cs i = Some c -> uses_ptr eg p c = true -> b = false) ->
    forall st st', einv st -> iter_run st sched = Some st' -> einv st'.
  Proof.
    induction sched as [|[i b] sched IH]; intros NB st st' C H; cbn in H; [congruence|].
    destruct (iter_step st i b) as [st1|] eqn:E; [|discriminate]. eapply IH; [| |eauto].
    - intros; eapply NB; [right; eauto| |]; eauto.
    - eapply einv_step; [exact C| |exact E]. intros; eapply NB; [left; reflexivity| |]; eauto.
  Qed.

  Lemma einv_init : einv (iter_init cs).
  Proof.
    split; [apply cinv_init|]. split.
    - unfold iter_init. cbn [is_cls is_cnt]. rewrite sumn_map, sumn_zero; [lia|]. intros c _. unfold passk, passes. cbn. destruct (_ && _)%bool; auto.
    - intros k I U F. unfold iter_init in I. cbn in I. apply in_map_iff in I as (c & <- & _). discriminate.
  Qed.

  Lemma counter_exact sched st : (forall i b c, In (i, b) sched -> nth_error cs i = Some c -> uses_ptr eg p c = true -> b = false) -> iter_run (iter_init cs) sched = Some st ->
    users <> [] -> (forall k, In k (is_cls st) -> usesk eg p k = true -> ic_ph k = Finished) ->
    sumn (fun k => if usesk eg p k then ic_n k else 0%N) (is_cls st) = n.
  Proof.
    intros NB H NE ALL. destruct (einv_run _ NB _ _ einv_init H) as (HI & HE & HF).
    destruct HI as (HC & _ & _).
    assert (EX : exists k, In k (is_cls st) /\ usesk eg p k = true).
    { destruct users as [|c us] eqn:EU; [congruence|]. assert (IC : In c users) by (rewrite EU; left; auto).
      unfold users in IC. apply filter_In in IC as [I U]. rewrite <- HC in I. apply in_map_iff in I as (k & <- & I). exists k. auto. }
    destruct EX as (k & I & U). specialize (HF _ I U (ALL _ I U)).
    rewrite (sumn_ext _ (passk eg p n)); [lia|]. intros y IY. unfold passk.
    destruct (usesk eg p y) eqn:UY; cbn [andb]; auto.
    destruct (LIM (ic_c y)) as (L & _); [rewrite <- HC; now apply in_map|exact UY|]. rewrite L, N.leb_refl.
    unfold passes. rewrite (ALL _ IY UY). lia.
  Qed.
End Exact.

(** The client's own limit. *)
Lemma own_limit cs sched : forall st, iter_run (iter_init cs) sched = Some st ->
  Forall (fun k => (0 < c_iter (ic_c k))%N -> (ic_n k <= c_iter (ic_c k))%N) (is_cls st).
Proof.
  assert (X : forall st st', Forall (fun k => (0 < c_iter (ic_c k))%N -> (ic_n k <= c_iter (ic_c k))%N) (is_cls st) ->
    iter_run st sched = Some st' -> Forall (fun k => (0 < c_iter (ic_c k))%N -> (ic_n k <= c_iter (ic_c k))%N) (is_cls st')).
  { induction sched as [|[i b] sched IH]; intros st st' C H; cbn in H; [congruence|].
    destruct (iter_step st i b) as [st1|] eqn:E; [|discriminate]. eapply IH; [|eauto]. clear IH H.
    unfold iter_step in E. destruct (nth_error (is_cls st) i) as [k|] eqn:EK; [|discriminate].
    assert (Q := proj1 (Forall_forall _ _) C _ (nth_error_In _ _ EK)). cbn beta in Q.
    assert (P : forall cnt ph m, ((0 < c_iter (ic_c k))%N -> (m <= c_iter (ic_c k))%N) ->
      (match set_nth (is_cls st) i (ICl (ic_c k) ph m) with Some l => Some (ISt cnt l) | None => None end) = Some st1 ->
      Forall (fun k => (0 < c_iter (ic_c k))%N -> (ic_n k <= c_iter (ic_c k))%N) (is_cls st1)).
    { intros cnt ph m Q' E'. destruct (set_nth (is_cls st) i (ICl (ic_c k) ph m)) as [l|] eqn:ES; [|discriminate]. injection E' as <-. cbn [is_cls].
      apply Forall_forall. intros y IY. destruct (in_set _ _ _ _ _ ES IY) as [->|I]; [exact Q'|]. revert y I IY. 
      intros y I _. exact (proj1 (Forall_forall _ _) C _ I). }
    destruct (ic_ph k); try discriminate.
    - destruct (shared_check _ _ _). eauto.
    - destruct (shared_check _ _ _). eauto.
    - destruct ((0 <? c_iter (ic_c k)) && (ic_n k =? c_iter (ic_c k)))%N%bool eqn:L; [eauto|]. eapply P; [|eauto]. lia.
    - eauto. }
  intros st H. eapply X; eauto. unfold iter_init. cbn. apply Forall_forall. intros k I. apply in_map_iff in I as (c & <- & _). cbn. lia.
Qed.

(* ------------------------------------------------------------------------------------ *)
(** * Allocated clients *)
From Verif Require Import WorkloadSpec InstanceProofs WireProofs IterSpec.

Lemma labelled_in out e g c : In (e, g, c) (labelled out) <-> exists k, client_at out e g k = Some c.
Proof.
  unfold labelled. rewrite in_concat_mapi. split.
  - intros (i & css & E & H). apply in_concat_mapi in H as (j & cs & E' & H). apply in_map_iff in H as (c' & Q & H).
    injection Q as <- <- <-. apply In_nth_error in H as [k H]. exists k. unfold client_at. cbn. now rewrite E, E'.
  - intros [k H]. unfold client_at in H. destruct (nth_error out e) as [css|] eqn:E; [|discriminate].
    destruct (nth_error css g) as [cs|] eqn:E'; [|discriminate]. exists e, css. split; auto.
    apply in_concat_mapi. exists g, cs. split; auto. apply in_map_iff. exists c. split; auto. now apply nth_error_In with k.
Qed.

Lemma iterations_le sel (f : icl -> N) : forall ls ks, map ic_c ks = map snd ls ->
  (forall e g c k, In (e, g, c) ls -> In k ks -> ic_c k = c -> sel e g = true -> ic_n k <= f k)%N ->
  (iterations sel ls ks <= sumn f ks)%N.
Proof.
  induction ls as [|[[e g] c] ls IH]; intros [|k ks] M H; cbn in *; try discriminate; try lia.
  injection M as M0 M1. specialize (IH ks M1 ltac:(intros; eapply H; eauto)).
  specialize (H e g c k (or_introl eq_refl) (or_introl eq_refl) M0). destruct (sel e g); [specialize (H eq_refl)|]; lia.
Qed.

Lemma iterations_eq sel (u : icl -> bool) : forall ls ks, map ic_c ks = map snd ls ->
  (forall e g c k, In (e, g, c) ls -> In k ks -> ic_c k = c -> u k = sel e g) ->
  iterations sel ls ks = sumn (fun k => if u k then ic_n k else 0%N) ks.
Proof.
  induction ls as [|[[e g] c] ls IH]; intros [|k ks] M H; cbn in *; try discriminate; auto.
  injection M as M0 M1. rewrite (IH ks M1) by (intros; eapply H; eauto).
  rewrite (H e g c k) by auto. reflexivity.
Qed.

Lemma users_le sel (u : client -> bool) : forall ls,
  (forall e g c, In (e, g, c) ls -> u c = true -> sel e g = true) ->
  (N.of_nat (length (filter u (map snd ls))) <= clients_in sel ls)%N.
Proof.
  unfold clients_in. induction ls as [|[[e g] c] ls IH]; intros H; cbn [filter map fst snd length]; [lia|].
  specialize (IH ltac:(intros; eapply H; cbn; eauto)).
  destruct (u c) eqn:U; [rewrite (H e g c (or_introl eq_refl) U)|destruct (sel e g)]; cbn [length]; lia.
Qed.

Lemma run_clients cs sched st : iter_run (iter_init cs) sched = Some st -> map ic_c (is_cls st) = cs.
Proof.
  assert (X : forall sched st st', iter_run st sched = Some st' -> map ic_c (is_cls st') = map ic_c (is_cls st)).
  { clear. induction sched as [|[i b] sched IH]; intros st st' H; cbn in H; [congruence|].
    destruct (iter_step st i b) as [st1|] eqn:E; [|discriminate]. rewrite (IH _ _ H). clear IH H.
    unfold iter_step in E. destruct (nth_error (is_cls st) i) as [k|] eqn:EK; [|discriminate].
    assert (P : forall cnt ph m,
      (match set_nth (is_cls st) i (ICl (ic_c k) ph m) with Some l => Some (ISt cnt l) | None => None end) = Some st1 ->
      map ic_c (is_cls st1) = map ic_c (is_cls st)).
    { intros cnt ph m E'. destruct (set_nth (is_cls st) i (ICl (ic_c k) ph m)) as [l|] eqn:ES; [|discriminate]. injection E' as <-. cbn [is_cls].
      eapply sumn_set_map; eauto. }
    destruct (ic_ph k); try discriminate; try (destruct (shared_check _ _ _)); eauto.
    destruct (_ && _)%bool; eauto. }
  intros H. rewrite (X _ _ _ H). unfold iter_init. cbn. rewrite map_map. cbn. apply map_id.
Qed.

Section Alloc.
  Variables (ts : trxset) (ws : bool) (stage : N) (wl : list cgcfg) (qn tn : N) (w w' : wst)
    (out : list (list (list client))) (wl' : list cgcfg) (gs : list (list nat)).
  Hypotheses (HA : allocate ts ws stage wl qn tn w = Some (w', out)) (HG : groups ts wl = Some (wl', gs)).

  Lemma lab_cfg e g c : In (e, g, c) (labelled out) -> exists cg, cg_at wl' gs e g = Some cg /\
    c_iterClients c = u32 (cg_iterClients cg) /\ (c_iterClientsPtr c = None <-> cg_iterClients cg = 0%N) /\
    c_iterEg c = u32 (cg_iterExecGroup cg) /\ (c_iterEgPtr c = None <-> cg_iterExecGroup cg = 0%N).
  Proof.
    intros I. apply labelled_in in I as [k H]. destruct (two_clients _ _ _ _ _ _ _ _ _ _ _ HA HG) as (O & b & T).
    destruct (T true _ _ _ _ _ _ _ _ H H) as (u0 & u1 & u2 & u3 & ls & le & lg & lk & le' & lg' & lk' & cp & ep & cp' & ep' & X0 & X1 & X2 & X3 & S & S' & C & C' & SE & SG & SK).
    exists u1. split; auto. destruct (counters_shared _ _ _ _ _ _ _ _ _ _ _ _ _ _ _ _ _ _ _ _ HA HG H H X1) as ((A & B) & (D & E) & _). auto.
  Qed.

  Lemma lab_iter e g c cg : no_empty_trx ts wl' -> In (e, g, c) (labelled out) -> cg_at wl' gs e g = Some cg -> c_iter c = cg_iter cg.
  Proof.
    intros NE I X. apply labelled_in in I as [k H]. unfold allocate in HA.
    destruct (new_rate w qn) as [w1 sq]. destruct (new_rate w1 tn) as [w2 st]. rewrite HG in HA.
    destruct (clients_of _ _ _ _ _ _ _ _ _ _ HA NE) as [LO CO].
    unfold client_at in H. destruct (nth_error out e) as [css|] eqn:H1; [|discriminate].
    destruct (nth_error css g) as [cs|] eqn:H2; [|discriminate].
    destruct (CO _ _ H1) as (refs & R1 & R2 & R3). destruct (R3 _ _ H2) as (r & cg' & Q1 & Q2 & Q3 & Q4).
    assert (cg' = cg) as -> by (unfold cg_at in X; rewrite R1, Q1 in X; congruence).
    destruct (Q4 _ _ H) as (_ & _ & _ & _ & _ & C6 & _). exact C6.
  Qed.

  Lemma lab_ptr e g c e' g' c' : In (e, g, c) (labelled out) -> In (e', g', c') (labelled out) ->
    (forall p p', c_iterClientsPtr c = Some p -> c_iterClientsPtr c' = Some p' -> (p = p' <-> e = e' /\ g = g')) /\
    (forall p p', c_iterEgPtr c = Some p -> c_iterEgPtr c' = Some p' -> (p = p' <-> e = e')) /\
    (forall p p', c_iterClientsPtr c = Some p -> c_iterEgPtr c' = Some p' -> p <> p').
  Proof.
    intros I I'. destruct (lab_cfg _ _ _ I) as (cg & X1 & _). apply labelled_in in I as [k H]. apply labelled_in in I' as [k' H'].
    destruct (counters_shared _ _ _ _ _ _ _ _ _ _ _ _ _ _ _ _ _ _ _ _ HA HG H H' X1) as (_ & _ & A & B & C). auto.
  Qed.

  Lemma u32_small n : (n < 2^32)%N -> u32 n = n.
  Proof. intros. unfold u32. now apply N.mod_small. Qed.

  (** the counter of client group (e, g) *)
  Lemma group_ptr e g c cg : In (e, g, c) (labelled out) -> cg_at wl' gs e g = Some cg -> (0 < cg_iterClients cg)%N ->
    exists p, c_iterClientsPtr c = Some p /\
      (forall c', In c' (map snd (labelled out)) -> uses_ptr true p c' = false) /\
      (forall e' g' c', In (e', g', c') (labelled out) -> uses_ptr false p c' = true -> one_group e g e' g' = true) /\
      (forall e' g' c', In (e', g', c') (labelled out) -> u32 (cg_iterClients cg) <> 0%N -> one_group e g e' g' = true -> uses_ptr false p c' = true).
  Proof.
    intros I X L. destruct (lab_cfg _ _ _ I) as (cg1 & X1 & A & B & _). assert (cg1 = cg) as -> by congruence.
    destruct (c_iterClientsPtr c) as [p|] eqn:EP; [|exfalso; assert (cg_iterClients cg = 0%N) by tauto; lia].
    exists p. split; auto. split; [|split].
    - intros c' I'. apply in_map_iff in I' as ([[e' g'] c''] & <- & I'). cbn [snd]. unfold uses_ptr. cbn [lim_of ptr_of].
      destruct (c_iterEgPtr c'') as [p'|] eqn:EP'; [|apply andb_false_r].
      destruct (lab_ptr _ _ _ _ _ _ I I') as (_ & _ & P). specialize (P _ _ EP EP').
      destruct (Nat.eqb_spec p p'); [congruence|]. apply andb_false_r.
    - intros e' g' c' I' U. unfold uses_ptr in U. cbn [lim_of ptr_of] in U. destruct (c_iterClientsPtr c') as [p'|] eqn:EP'; [|rewrite andb_false_r in U; discriminate].
      destruct (lab_ptr _ _ _ _ _ _ I I') as (P & _). specialize (P _ _ EP EP'). apply andb_true_iff in U as [_ U].
      apply Nat.eqb_eq in U. apply P in U as [-> ->]. unfold one_group. now rewrite !Nat.eqb_refl.
    - intros e' g' c' I' NZ S. unfold one_group in S. apply andb_true_iff in S as [S1 S2]. apply Nat.eqb_eq in S1, S2. subst e' g'.
      destruct (lab_cfg _ _ _ I') as (cg1 & X1' & A' & B' & _). assert (cg1 = cg) as -> by congruence.
      unfold uses_ptr. cbn [lim_of ptr_of]. rewrite A'. destruct (c_iterClientsPtr c') as [p'|] eqn:EP'; [|exfalso; assert (cg_iterClients cg = 0%N) by tauto; lia].
      destruct (lab_ptr _ _ _ _ _ _ I I') as (P & _). specialize (P _ _ EP EP').
      assert (p = p') as -> by tauto. rewrite Nat.eqb_refl, andb_true_r. lia.
  Qed.

  Lemma eg_ptr e g c cg : In (e, g, c) (labelled out) -> cg_at wl' gs e g = Some cg -> (0 < cg_iterExecGroup cg)%N ->
    exists p, c_iterEgPtr c = Some p /\
      (forall c', In c' (map snd (labelled out)) -> uses_ptr false p c' = false) /\
      (forall e' g' c', In (e', g', c') (labelled out) -> uses_ptr true p c' = true -> exec_group e e' g' = true) /\
      (forall e' g' c' cg', In (e', g', c') (labelled out) -> cg_at wl' gs e' g' = Some cg' -> u32 (cg_iterExecGroup cg') <> 0%N ->
         exec_group e e' g' = true -> uses_ptr true p c' = true).
  Proof.
    intros I X L. destruct (lab_cfg _ _ _ I) as (cg1 & X1 & _ & _ & A & B). assert (cg1 = cg) as -> by congruence.
    destruct (c_iterEgPtr c) as [p|] eqn:EP; [|exfalso; assert (cg_iterExecGroup cg = 0%N) by tauto; lia].
    exists p. split; auto. split; [|split].
    - intros c' I'. apply in_map_iff in I' as ([[e' g'] c''] & <- & I'). cbn [snd]. unfold uses_ptr. cbn [lim_of ptr_of].
      destruct (c_iterClientsPtr c'') as [p'|] eqn:EP'; [|apply andb_false_r].
      destruct (lab_ptr _ _ _ _ _ _ I' I) as (_ & _ & P). specialize (P _ _ EP' EP).
      destruct (Nat.eqb_spec p p'); [congruence|]. apply andb_false_r.
    - intros e' g' c' I' U. unfold uses_ptr in U. cbn [lim_of ptr_of] in U. destruct (c_iterEgPtr c') as [p'|] eqn:EP'; [|rewrite andb_false_r in U; discriminate].
      destruct (lab_ptr _ _ _ _ _ _ I I') as (_ & P & _). specialize (P _ _ EP EP'). apply andb_true_iff in U as [_ U].
      apply Nat.eqb_eq in U. apply P in U as ->. unfold exec_group. now rewrite !Nat.eqb_refl.
    - intros e' g' c' cg' I' X' NZ S. unfold exec_group in S. apply Nat.eqb_eq in S. subst e'.
      destruct (lab_cfg _ _ _ I') as (cg1 & X1' & _ & _ & A' & B'). assert (cg1 = cg') as -> by congruence.
      unfold uses_ptr. cbn [lim_of ptr_of]. rewrite A'. destruct (c_iterEgPtr c') as [p'|] eqn:EP'.
      2:{ exfalso. assert (Z : cg_iterExecGroup cg' = 0%N) by tauto. rewrite Z in NZ. apply NZ. reflexivity. }
      destruct (lab_ptr _ _ _ _ _ _ I I') as (_ & P & _). specialize (P _ _ EP EP').
      assert (p = p') as -> by tauto. rewrite Nat.eqb_refl, andb_true_r. lia.
  Qed.

  Lemma no_client sel ls ks : (forall e g c, In (e, g, c) ls -> sel e g = false) -> iterations sel ls ks = 0%N.
  Proof.
    revert ks. induction ls as [|[[e g] c] ls IH]; intros [|k ks] H; cbn; auto. rewrite (H e g c (or_introl eq_refl)).
    rewrite IH; auto. intros; eapply H; right; eauto.
  Qed.

  Lemma in_dec_sel sel (ls : list (nat * nat * client)) : (exists e g c, In (e, g, c) ls /\ sel e g = true) \/ (forall e g c, In (e, g, c) ls -> sel e g = false).
  Proof.
    induction ls as [|[[e g] c] ls IH]; [right; intros ? ? ? []|]. destruct IH as [(a & b & d & I & S)|N].
    - left. exists a, b, d. split; auto. now right.
    - destruct (sel e g) eqn:S; [left; exists e, g, c; split; auto; now left|]. right. intros a b d [E|I]; [now injection E as <- <- <-|eauto].
  Qed.

  Lemma clients_limit e g cg sched st : cg_at wl' gs e g = Some cg -> (0 < cg_iterClients cg)%N ->
    (cg_iterClients cg + clients_in (one_group e g) (labelled out) < 2^32)%N ->
    clients_run out sched = Some st ->
    (iterations (one_group e g) (labelled out) (is_cls st) <= cg_iterClients cg)%N.
  Proof.
    intros X L B R. destruct (in_dec_sel (one_group e g) (labelled out)) as [(e1 & g1 & c & I & S)|N].
    2:{ rewrite no_client by auto. lia. }
    assert (e1 = e /\ g1 = g) as [-> ->].
    { unfold one_group in S. apply andb_true_iff in S as [S1 S2]. apply Nat.eqb_eq in S1, S2. auto. }
    destruct (group_ptr _ _ _ _ I X L) as (p & EP & K & U1 & U2). unfold clients_run in R.
    assert (SM : u32 (cg_iterClients cg) = cg_iterClients cg) by (apply u32_small; lia).
    assert (CFG : forall e' g' c', In (e', g', c') (labelled out) -> uses_ptr false p c' = true -> c_iterClients c' = cg_iterClients cg).
    { intros e' g' c' I' U. specialize (U1 _ _ _ I' U). unfold one_group in U1. apply andb_true_iff in U1 as [S1 S2]. apply Nat.eqb_eq in S1, S2. subst e' g'.
      destruct (lab_cfg _ _ _ I') as (cg1 & X1 & A & _). congruence. }
    assert (NW : (cg_iterClients cg + N.of_nat (length (filter (uses_ptr false p) (map snd (labelled out)))) < 2^32)%N).
    { pose proof (users_le (one_group e g) (uses_ptr false p) (labelled out) U1). lia. }
    pose proof (counter_bound false p (cg_iterClients cg) (map snd (labelled out)) K (cg_iterClients cg)) as CB.
    assert (CB1 := CB ltac:(intros c' I' U; apply in_map_iff in I' as ([[e' g'] c''] & <- & I'); cbn [snd lim_of] in *; rewrite (CFG _ _ _ I' U); lia) NW sched st R). clear CB.
    etransitivity; [|exact CB1]. apply iterations_le; [exact (run_clients _ _ _ R)|].
    intros e' g' c' k I' IK <- S'. unfold usesk. specialize (U2 _ _ _ I' ltac:(lia) S'). rewrite U2.
    cbn [lim_of]. rewrite (CFG _ _ _ I' U2), N.leb_refl. cbn [andb]. lia.
  Qed.

  Lemma clients_limit_exact e g cg sched st : cg_at wl' gs e g = Some cg -> (0 < cg_iterClients cg)%N ->
    cg_iterExecGroup cg = 0%N -> (forall c, In (e, g, c) (labelled out) -> c_iter c = 0%N) ->
    (cg_iterClients cg + clients_in (one_group e g) (labelled out) < 2^32)%N ->
    (exists c, In (e, g, c) (labelled out)) ->
    undisturbed (one_group e g) (labelled out) sched -> clients_run out sched = Some st ->
    all_finished (one_group e g) (labelled out) (is_cls st) ->
    iterations (one_group e g) (labelled out) (is_cls st) = cg_iterClients cg.
  Proof.
    intros X L E0 I0 B (c & I) UD R AF.
    destruct (group_ptr _ _ _ _ I X L) as (p & EP & K & U1 & U2). unfold clients_run in R.
    assert (SM : u32 (cg_iterClients cg) = cg_iterClients cg) by (apply u32_small; lia).
    assert (ONE : forall e' g', one_group e g e' g' = true -> e' = e /\ g' = g).
    { intros e' g' S. unfold one_group in S. apply andb_true_iff in S as [S1 S2]. apply Nat.eqb_eq in S1, S2. auto. }
    assert (CFG : forall e' g' c', In (e', g', c') (labelled out) -> uses_ptr false p c' = true ->
       lim_of false c' = cg_iterClients cg /\ lim_of true c' = 0%N /\ c_iter c' = 0%N).
    { intros e' g' c' I' U. destruct (ONE _ _ (U1 _ _ _ I' U)) as [-> ->].
      destruct (lab_cfg _ _ _ I') as (cg1 & X1 & A & _ & A' & _). assert (cg1 = cg) as -> by congruence. cbn [lim_of].
      split; [congruence|]. split; [rewrite A', E0; reflexivity|eauto]. }
    assert (NW : (cg_iterClients cg + N.of_nat (length (filter (uses_ptr false p) (map snd (labelled out)))) < 2^32)%N).
    { pose proof (users_le (one_group e g) (uses_ptr false p) (labelled out) U1). lia. }
    pose proof (run_clients _ _ _ R) as RC.
    assert (UE : forall e' g' c' k, In (e', g', c') (labelled out) -> In k (is_cls st) -> ic_c k = c' -> usesk false p k = one_group e g e' g').
    { intros e' g' c' k I' IK <-. unfold usesk. destruct (uses_ptr false p (ic_c k)) eqn:U; [symmetry; eauto|].
      destruct (one_group e g e' g') eqn:S; auto. exfalso. specialize (U2 _ _ _ I' ltac:(lia) S). congruence. }
    rewrite (iterations_eq _ (usesk false p) _ _ RC UE).
    apply (counter_exact false p (cg_iterClients cg) (map snd (labelled out)) K) with (sched := sched); auto.
    2:{ intros i b c' IS Q U. rewrite nth_error_map in Q. destruct (nth_error (labelled out) i) as [[[e' g'] c'']|] eqn:EJ; [|discriminate].
        cbn in Q. injection Q as ->. eapply UD; eauto. apply (U1 _ _ _ (nth_error_In _ _ EJ) U). }
    - intros c' I' U. apply in_map_iff in I' as ([[e' g'] c''] & <- & I'). cbn [snd] in *. eauto.
    - intros NIL. assert (IN : In c (filter (uses_ptr false p) (map snd (labelled out)))).
      { apply filter_In. split; [apply in_map_iff; exists (e, g, c); auto|]. apply (U2 _ _ _ I); [lia|]. unfold one_group. now rewrite !Nat.eqb_refl. }
      rewrite NIL in IN. destruct IN.
    - intros k IK UK. apply In_nth_error in IK as [j IK].
      assert (Q : nth_error (map snd (labelled out)) j = Some (ic_c k)) by (rewrite <- RC; apply map_nth_error; auto).
      rewrite nth_error_map in Q. destruct (nth_error (labelled out) j) as [[[e' g'] c']|] eqn:EJ; [|discriminate]. cbn in Q.
      injection Q as ->. apply (AF _ _ _ _ _ EJ IK). apply nth_error_In in EJ, IK. rewrite <- (UE _ _ _ _ EJ IK eq_refl). exact UK.
  Qed.

  Lemma eg_limit e n m sched st :
    (forall g cg, cg_at wl' gs e g = Some cg -> (cg_iterExecGroup cg <= m)%N) ->
    (m + clients_in (exec_group e) (labelled out) < 2^32)%N ->
    clients_run out sched = Some st ->
    (iterations (limited wl' gs e n) (labelled out) (is_cls st) <= n)%N.
  Proof.
    intros LM B R. destruct (in_dec_sel (limited wl' gs e n) (labelled out)) as [(e1 & g1 & c & I & S)|N].
    2:{ rewrite no_client by auto. lia. }
    assert (e1 = e) as ->.
    { unfold limited in S. apply andb_true_iff in S as [S1 _]. now apply Nat.eqb_eq in S1. }
    destruct (lab_cfg _ _ _ I) as (cg & X & _).
    assert (L : (0 < cg_iterExecGroup cg)%N) by (unfold limited in S; rewrite X in S; lia).
    destruct (eg_ptr _ _ _ _ I X L) as (p & EP & K & U1 & U2). unfold clients_run in R.
    assert (CFG : forall e' g' c', In (e', g', c') (labelled out) -> uses_ptr true p c' = true ->
       exists cg', cg_at wl' gs e' g' = Some cg' /\ e' = e /\ c_iterEg c' = cg_iterExecGroup cg').
    { intros e' g' c' I' U. specialize (U1 _ _ _ I' U). unfold exec_group in U1. apply Nat.eqb_eq in U1. subst e'.
      destruct (lab_cfg _ _ _ I') as (cg1 & X1 & _ & _ & A & _). exists cg1. split; auto. split; auto. rewrite A. apply u32_small. specialize (LM _ _ X1). lia. }
    assert (NW : (m + N.of_nat (length (filter (uses_ptr true p) (map snd (labelled out)))) < 2^32)%N).
    { pose proof (users_le (exec_group e) (uses_ptr true p) (labelled out) U1). lia. }
    pose proof (counter_bound true p n (map snd (labelled out)) K m) as CB.
    assert (CB1 := CB ltac:(intros c' I' U; apply in_map_iff in I' as ([[e' g'] c''] & <- & I'); cbn [snd lim_of] in *; destruct (CFG _ _ _ I' U) as (cg' & X' & -> & ->); eauto) NW sched st R). clear CB.
    etransitivity; [|exact CB1]. apply iterations_le; [exact (run_clients _ _ _ R)|].
    intros e' g' c' k I' IK <- S'. unfold limited in S'. apply andb_true_iff in S' as [S1 S2].
    destruct (cg_at wl' gs e' g') as [cg'|] eqn:X'; [|discriminate]. apply Nat.eqb_eq in S1. subst e'.
    assert (U : usesk true p k = true).
    { unfold usesk. apply (U2 _ _ _ _ I' X'); [rewrite u32_small; [lia|]; specialize (LM _ _ X'); lia|]. apply Nat.eqb_refl. }
    rewrite U. unfold usesk in U. destruct (CFG _ _ _ I' U) as (cg2 & X2 & _ & Q). assert (cg2 = cg') as -> by congruence. cbn [lim_of]. rewrite Q.
    destruct (cg_iterExecGroup cg' <=? n)%N eqn:LE; cbn [andb]; [lia|]. rewrite andb_false_r in S2. discriminate.
  Qed.

  Lemma eg_limit_exact e n sched st : (0 < n)%N ->
    (forall g cg, cg_at wl' gs e g = Some cg -> cg_iterExecGroup cg = n /\ cg_iterClients cg = 0%N) ->
    (forall g c, In (e, g, c) (labelled out) -> c_iter c = 0%N) ->
    (n + clients_in (exec_group e) (labelled out) < 2^32)%N ->
    (exists g c, In (e, g, c) (labelled out)) ->
    undisturbed (exec_group e) (labelled out) sched -> clients_run out sched = Some st ->
    all_finished (exec_group e) (labelled out) (is_cls st) ->
    iterations (exec_group e) (labelled out) (is_cls st) = n.
  Proof.
    intros L ALL I0 B (g & c & I) UD R AF.
    destruct (lab_cfg _ _ _ I) as (cg & X & _). destruct (ALL _ _ X) as [N1 N2].
    destruct (eg_ptr _ _ _ _ I X ltac:(lia)) as (p & EP & K & U1 & U2). unfold clients_run in R.
    assert (SM : u32 n = n) by (apply u32_small; lia).
    assert (CFG : forall e' g' c', In (e', g', c') (labelled out) -> uses_ptr true p c' = true ->
       lim_of true c' = n /\ lim_of false c' = 0%N /\ c_iter c' = 0%N).
    { intros e' g' c' I' U. specialize (U1 _ _ _ I' U). unfold exec_group in U1. apply Nat.eqb_eq in U1. subst e'.
      destruct (lab_cfg _ _ _ I') as (cg1 & X1 & A & _ & A' & _). destruct (ALL _ _ X1) as [M1 M2]. cbn [lim_of].
      split; [congruence|]. split; [rewrite A, M2; reflexivity|eauto]. }
    assert (NW : (n + N.of_nat (length (filter (uses_ptr true p) (map snd (labelled out)))) < 2^32)%N).
    { pose proof (users_le (exec_group e) (uses_ptr true p) (labelled out) U1). lia. }
    pose proof (run_clients _ _ _ R) as RC.
    assert (UE : forall e' g' c' k, In (e', g', c') (labelled out) -> In k (is_cls st) -> ic_c k = c' -> usesk true p k = exec_group e e' g').
    { intros e' g' c' k I' IK <-. unfold usesk. destruct (uses_ptr true p (ic_c k)) eqn:U; [symmetry; eauto|].
      destruct (exec_group e e' g') eqn:S; auto. exfalso. destruct (lab_cfg _ _ _ I') as (cg1 & X1 & _).
      assert (e' = e) as -> by (unfold exec_group in S; now apply Nat.eqb_eq in S).
      destruct (ALL _ _ X1) as [M1 M2]. specialize (U2 _ _ _ _ I' X1 ltac:(rewrite M1; lia) S). congruence. }
    rewrite (iterations_eq _ (usesk true p) _ _ RC UE).
    apply (counter_exact true p n (map snd (labelled out)) K) with (sched := sched); auto.
    2:{ intros i b c' IS Q U. rewrite nth_error_map in Q. destruct (nth_error (labelled out) i) as [[[e' g'] c'']|] eqn:EJ; [|discriminate].
        cbn in Q. injection Q as ->. eapply UD; eauto. apply (U1 _ _ _ (nth_error_In _ _ EJ) U). }
    - intros c' I' U. apply in_map_iff in I' as ([[e' g'] c''] & <- & I'). cbn [snd] in *. eauto.
    - intros NIL. assert (IN : In c (filter (uses_ptr true p) (map snd (labelled out)))).
      { apply filter_In. split; [apply in_map_iff; exists (e, g, c); auto|]. apply (U2 _ _ _ _ I X); [rewrite N1; lia|]. apply Nat.eqb_refl. }
      rewrite NIL in IN. destruct IN.
    - intros k IK UK. apply In_nth_error in IK as [j IK].
      assert (Q : nth_error (map snd (labelled out)) j = Some (ic_c k)) by (rewrite <- RC; apply map_nth_error; auto).
      rewrite nth_error_map in Q. destruct (nth_error (labelled out) j) as [[[e' g'] c']|] eqn:EJ; [|discriminate]. cbn in Q.
      injection Q as ->. apply (AF _ _ _ _ _ EJ IK). apply nth_error_In in EJ, IK. rewrite <- (UE _ _ _ _ EJ IK eq_refl). exact UK.
  Qed.
End Alloc.
