From Verif Require Import Prelude ScopeModel ScopeSpec.

(** * Run levels *)

(** Lexicographic order, high levels first. *)
Definition rl_lt (a b : runlevel) : Prop :=
  (rl_stage a < rl_stage b)%N \/ rl_stage a = rl_stage b /\
  ((rl_eg a < rl_eg b)%N \/ rl_eg a = rl_eg b /\
   ((rl_cg a < rl_cg b)%N \/ rl_cg a = rl_cg b /\
    ((rl_client a < rl_client b)%N \/ rl_client a = rl_client b /\
     ((rl_trx a < rl_trx b)%N \/ rl_trx a = rl_trx b /\ (rl_query a < rl_query b)%N)))).
Definition rl_le a b := rl_lt a b \/ a = b.

(** Equal at every level that a scope distinguishes. *)
Definition same_proj (s : scope) (a b : runlevel) : Prop :=
  match s with
  | SValue => False
  | SRow | SStatement => a = b
  | STrx => rl_stage a = rl_stage b /\ rl_eg a = rl_eg b /\ rl_cg a = rl_cg b /\
            rl_client a = rl_client b /\ rl_trx a = rl_trx b
  | SIter | SClient => rl_stage a = rl_stage b /\ rl_eg a = rl_eg b /\ rl_cg a = rl_cg b /\
            rl_client a = rl_client b
  | SClientGroup => rl_stage a = rl_stage b /\ rl_eg a = rl_eg b /\ rl_cg a = rl_cg b
  | SExecGroup => rl_stage a = rl_stage b /\ rl_eg a = rl_eg b
  | SWorkload | SStage => rl_stage a = rl_stage b
  | SGlobal => True
  end.

Lemma rl_le_trans a b c : rl_le a b -> rl_le b c -> rl_le a c.
Proof.
  unfold rl_le. intros [H|H] [H'|H']; subst; auto. left.
  unfold rl_lt in *. lia.
Qed.
Lemma rl_lt_trans a b c : rl_lt a b -> rl_lt b c -> rl_lt a c.
Proof. unfold rl_lt. lia. Qed.
Lemma rl_le_refl a : rl_le a a.
Proof. now right. Qed.
Lemma rl_le_stage a b : rl_le a b -> (rl_stage a <= rl_stage b)%N.
Proof. intros [H|H]; subst; unfold rl_lt in *; lia. Qed.

Lemma same_proj_refl s a : s <> SValue -> same_proj s a a.
Proof. destruct s; cbn; tauto. Qed.
Lemma same_proj_sym s a b : same_proj s a b -> same_proj s b a.
Proof. destruct s; cbn; intuition congruence. Qed.
Lemma same_proj_trans s a b c : same_proj s a b -> same_proj s b c -> same_proj s a c.
Proof. destruct s; cbn; intuition congruence. Qed.
Lemma same_proj_stage s a b : s <> SGlobal -> same_proj s a b -> rl_stage a = rl_stage b.
Proof. destruct s; cbn; intuition congruence. Qed.

(** a <= b <= c and a ~ c imply b ~ c *)
Lemma same_proj_between s a b c :
  rl_le a b -> rl_le b c -> same_proj s a c -> same_proj s b c.
Proof.
  intros [H|H] [H'|H'] S; subst; auto;
    try (apply same_proj_refl; intros ->; cbn in S; tauto);
    try (destruct s; cbn in *; try tauto; subst; unfold rl_lt in *; try lia).
Qed.

Lemma greater_than_iff rl prev s :
  rl_le prev rl -> s <> SValue -> greater_than rl prev s = false <-> same_proj s prev rl.
Proof.
  intros L NV. destruct rl as [a1 a2 a3 a4 a5 a6], prev as [b1 b2 b3 b4 b5 b6].
  unfold greater_than, same_proj.
  assert (E : RL b1 b2 b3 b4 b5 b6 = RL a1 a2 a3 a4 a5 a6 <->
              b1 = a1 /\ b2 = a2 /\ b3 = a3 /\ b4 = a4 /\ b5 = a5 /\ b6 = a6).
  { split; [intros H; inversion H; repeat split|intros (?&?&?&?&?&?); congruence]. }
  unfold rl_le, rl_lt in L. cbn in L. rewrite E in L.
  destruct s; try congruence; cbn [runlevel_number skipn rl_array any_greater rl_stage rl_eg rl_cg
    rl_client rl_trx rl_query]; rewrite ?E; try lia.
Qed.

Lemma Forall2_weaken {A B} (R R' : A -> B -> Prop) l l' :
  (forall a b, R a b -> R' a b) -> Forall2 R l l' -> Forall2 R' l l'.
Proof. intros H. induction 1; constructor; auto. Qed.

(** * A sequence of copies *)

Fixpoint copies (s : scopes) (evs : list (runlevel * string)) : option (scopes * list (option nat)) :=
  match evs with
  | [] => Some (s, [])
  | (rl, k) :: evs' =>
    match scopes_copy s k rl with
    | None => None
    | Some (s1, p) =>
      match copies s1 evs' with
      | None => None
      | Some (s2, ps) => Some (s2, p :: ps)
      end
    end
  end.

Lemma copies_app s e1 e2 :
  copies s (e1 ++ e2) =
  match copies s e1 with
  | None => None
  | Some (s1, p1) => match copies s1 e2 with
                     | None => None
                     | Some (s2, p2) => Some (s2, p1 ++ p2)
                     end
  end.
Proof.
  revert s; induction e1 as [|[rl k] e1 IH]; intros s; cbn.
  - destruct (copies s e2) as [[? ?]|]; reflexivity.
  - destruct (scopes_copy s k rl) as [[s1 p]|]; auto. rewrite IH.
    destruct (copies s1 e1) as [[s2 p1]|]; auto. destruct (copies s2 e2) as [[? ?]|]; auto.
Qed.

Lemma copies_length s evs s' ps : copies s evs = Some (s', ps) -> length ps = length evs.
Proof.
  revert s ps; induction evs as [|[rl k] evs IH]; cbn; intros s ps H; [inv H; auto|].
  repeat dmh H; try discriminate. inv H. cbn. erewrite IH; eauto.
Qed.

(** The scope of a key. *)
Definition kscope (s : scopes) (k : string) : option scope :=
  match s_keys s k with Some ky => Some (key_scope ky) | None => None end.

(** The invariant while allocating stage [st]; [cur] is the last run level visited. *)
Record Inv (s : scopes) (cur : runlevel) : Prop := {
  inv_name : forall k ky, s_keys s k = Some ky -> k_name ky = k;
  inv_key : forall k ky, s_keys s k = Some ky -> k <> NOOP_COLUMN ->
    rl_le (s_copiedAt s k) cur /\
    match s_copyOf s k with
    | None => (rl_stage (s_copiedAt s k) < rl_stage cur)%N
    | Some p => exists n, nth_error (s_heap s) p =
                          Some (SgId (s_copiedAt s k) (key_scope ky) k n)
    end;
  inv_noop : forall p, s_noop s = Some p ->
    exists i, nth_error (s_heap s) p = Some i /\ id_scope i = SGlobal;
  inv_heap : forall p i, nth_error (s_heap s) p = Some i -> id_scope i <> SGlobal ->
    (rl_stage (id_rl i) <= rl_stage cur)%N /\
    (rl_stage (id_rl i) = rl_stage cur ->
     exists ky, s_keys s (id_key i) = Some ky /\ id_key i <> NOOP_COLUMN /\
                s_copyOf s (id_key i) <> None /\
                key_scope ky = id_scope i /\
                rl_le (id_rl i) (s_copiedAt s (id_key i)));
  inv_uniq : forall p q i j, (p < q)%nat -> nth_error (s_heap s) p = Some i ->
    nth_error (s_heap s) q = Some j -> id_key i = id_key j ->
    id_scope i <> SGlobal -> id_scope j <> SGlobal ->
    ~ same_proj (id_scope j) (id_rl i) (id_rl j) }.

Lemma nth_error_snoc {A} (l : list A) x p y :
  nth_error (l ++ [x]) p = Some y ->
  nth_error l p = Some y \/ p = length l /\ y = x.
Proof.
  intros H. destruct (Nat.lt_ge_cases p (length l)).
  - left. rewrite nth_error_app1 in H; auto.
  - rewrite nth_error_app2 in H; auto.
    destruct (p - length l)%nat eqn:E; cbn in H; [inv H; right; split; auto; lia|].
    destruct n; discriminate.
Qed.
Lemma nth_error_app_some {A} (l l' : list A) p y :
  nth_error l p = Some y -> nth_error (l ++ l') p = Some y.
Proof.
  intros H. rewrite nth_error_app1; auto. apply nth_error_Some. congruence.
Qed.
Lemma nth_error_last {A} (l : list A) x : nth_error (l ++ [x]) (length l) = Some x.
Proof. rewrite nth_error_app2, Nat.sub_diag; auto. Qed.

(** What one copy does. *)
Record CopyOk (s : scopes) (k : string) (rl : runlevel) (s' : scopes) (r : option nat) : Prop := {
  co_inv : Inv s' rl;
  co_heap : exists l, s_heap s' = s_heap s ++ l;
  co_scope : forall k', kscope s' k' = kscope s k';
  co_res :
    (k = PREV /\ r = None) \/
    (k = NOOP_COLUMN /\ exists p i, r = Some p /\ nth_error (s_heap s') p = Some i /\ id_scope i = SGlobal) \/
    (k <> NOOP_COLUMN /\ kscope s k = Some SGlobal /\ r = None) \/
    (k <> NOOP_COLUMN /\ exists sc p i, kscope s k = Some sc /\ sc <> SGlobal /\ r = Some p /\
       nth_error (s_heap s') p = Some i /\ id_key i = k /\ id_scope i = sc /\
       ((sc = SValue /\ id_rl i = rl /\ p = length (s_heap s) /\ (p < length (s_heap s'))%nat) \/
        (sc <> SValue /\ same_proj sc (id_rl i) rl))) }.

Lemma inv_mono s cur cur' : Inv s cur -> rl_le cur cur' -> rl_stage cur = rl_stage cur' -> Inv s cur'.
Proof.
  intros I L E. destruct I as [I1 I2 I3 I4 I5]. constructor; auto.
  - intros k ky H N. destruct (I2 k ky H N) as [A B]. split; [eapply rl_le_trans; eauto|].
    rewrite <- E. exact B.
  - intros p i H N. rewrite <- E. exact (I4 p i H N).
Qed.

(** No key is global and already copied: holds as global keys are never copied. *)
Lemma scopes_copy_ok s k rl cur s' r :
  Inv s cur -> rl_le cur rl -> rl_stage cur = rl_stage rl -> (0 < rl_stage rl)%N ->
  (forall k', kscope s k' = Some SGlobal -> s_copyOf s k' = None) ->
  scopes_copy s k rl = Some (s', r) -> CopyOk s k rl s' r /\
  (forall k', kscope s' k' = Some SGlobal -> s_copyOf s' k' = None).
Proof.
  intros I0 L E POS NG H.
  assert (I : Inv s rl) by (eapply inv_mono; eauto). clear I0 L E.
  unfold scopes_copy in H.
  destruct (String.eqb_spec k PREV) as [->|NP].
  { inv H. split; auto. constructor; auto. exists []; now rewrite app_nil_r. }
  destruct (s_keys s k) as [ky|] eqn:HK; [|discriminate].
  pose proof (inv_name _ _ I k ky HK) as NM.
  destruct (String.eqb_spec (k_name ky) NOOP_COLUMN) as [NO|NO].
  { assert (k = NOOP_COLUMN) as -> by congruence. clear NO NM.
    destruct (s_noop s) as [p|] eqn:HN.
    - inv H. split; auto. constructor; auto.
      + exists []; now rewrite app_nil_r.
      + right; left. split; auto. destruct (inv_noop _ _ I p HN) as [i [A B]]. eauto.
    - inv H. split; [|exact NG]. constructor; cbn.
      + destruct I as [I1 I2 I3 I4 I5]. constructor; cbn; auto.
        * intros k0 ky0 H0 N0. destruct (I2 k0 ky0 H0 N0) as [A B]. split; auto.
          destruct (s_copyOf s k0); auto. destruct B as [cn B]. exists cn.
          now apply nth_error_app_some.
        * intros p Hp. inv Hp. eexists; split; [apply nth_error_last|reflexivity].
        * intros p i Hp Hi. apply nth_error_snoc in Hp as [Hp|[-> ->]]; [exact (I4 p i Hp Hi)|]. exfalso; apply Hi; reflexivity.
        * intros p q i j Hpq Hp Hq HE Hi Hj.
          apply nth_error_snoc in Hp as [Hp|[-> ->]]; [|cbn in Hi; exfalso; apply Hi; reflexivity].
          apply nth_error_snoc in Hq as [Hq|[-> ->]]; [|cbn in Hj; exfalso; apply Hj; reflexivity].
          eauto.
      + eauto.
      + reflexivity.
      + right; left. split; auto. exists (length (s_heap s)). eexists.
        split; [reflexivity|]. split; [apply nth_error_last|reflexivity]. }
  assert (kN : k <> NOOP_COLUMN) by congruence. clear NO.
  cbn [s_copiedAt s_keys s_copyOf s_copyCount s_noop s_heap] in H.
  assert (KS : kscope s k = Some (key_scope ky)) by (unfold kscope; now rewrite HK).
  set (ky' := Key (k_name ky) (k_column ky) (Some (key_scope ky)) (k_gen ky)) in *.
  assert (KSky' : key_scope ky' = key_scope ky) by reflexivity.
  assert (KSCOPE : forall k', match supd (s_keys s) k (Some ky') k' with
                              | Some x => Some (key_scope x) | None => None end = kscope s k').
  { intros k'. unfold supd, kscope. destruct (String.eqb_spec k k'); auto. subst k'. rewrite HK. now rewrite KSky'. }
  assert (KEY : forall k0 ky0, supd (s_keys s) k (Some ky') k0 = Some ky0 ->
                exists ky1, s_keys s k0 = Some ky1 /\ k_name ky1 = k_name ky0 /\ key_scope ky1 = key_scope ky0).
  { intros k0 ky0. unfold supd. destruct (String.eqb_spec k k0); [subst k0|eauto].
    intros X; inv X. eauto. }
  assert (KEYR : forall k0 ky0, s_keys s k0 = Some ky0 ->
                exists ky1, supd (s_keys s) k (Some ky') k0 = Some ky1 /\ key_scope ky1 = key_scope ky0).
  { intros k0 ky0 X. unfold supd. destruct (String.eqb_spec k k0); [subst k0|eauto].
    rewrite HK in X; inv X. eauto. }
  destruct (inv_key _ _ I k ky HK kN) as [LE CO].
  destruct (greater_than rl (s_copiedAt s k) (key_scope ky)) eqn:GT.
  - (* a new copy *)
    inversion H; subst s' r; clear H. cbn [s_copyOf]. rewrite supd_same.
    assert (NGk : key_scope ky <> SGlobal).
    { intros EG. rewrite EG in GT. cbn in GT. discriminate. }
    split.
    2:{ unfold kscope; cbn. intros k'. rewrite KSCOPE. intros X.
        rewrite supd_other; [auto|]. intros ->. congruence. }
    constructor; cbn.
    + destruct I as [I1 I2 I3 I4 I5]. constructor; cbn.
      * intros k0 ky0 X. destruct (KEY _ _ X) as (ky1 & A & B & C). rewrite <- B; eauto.
      * intros k0 ky0 X N0. destruct (KEY _ _ X) as (ky1 & A & B & C).
        rewrite NM. unfold supd. destruct (String.eqb_spec k k0).
        { subst k0. split; [apply rl_le_refl|]. rewrite HK in A; inv A.
          eexists. rewrite nth_error_last. rewrite C. reflexivity. }
        destruct (I2 k0 ky1 A N0) as [P Q]. split; auto.
        destruct (s_copyOf s k0); auto. destruct Q as [cn Q]. exists cn. rewrite <- C.
        now apply nth_error_app_some.
      * intros p Hp. destruct (I3 p Hp) as (i & A & B). exists i; split; auto.
        now apply nth_error_app_some.
      * intros p i Hp Hi. apply nth_error_snoc in Hp as [Hp|[-> ->]].
        -- destruct (I4 p i Hp Hi) as [A B]. split; auto. intros X.
           destruct (B X) as (ky0 & C1 & C2 & C3 & C4 & C5).
           destruct (KEYR _ _ C1) as (ky1 & D1 & D2). exists ky1.
           repeat (split; auto); try congruence.
           ++ unfold supd. destruct (String.eqb k (id_key i)); auto. discriminate.
           ++ rewrite NM. unfold supd. destruct (String.eqb_spec k (id_key i)) as [EQ|NE]; auto.
              eapply rl_le_trans; [exact C5|]. now rewrite <- EQ.
        -- cbn. split; [lia|]. intros _. destruct (KEYR _ _ HK) as (ky1 & D1 & D2).
           exists ky1. repeat (split; auto).
           ++ rewrite supd_same. discriminate.
           ++ rewrite NM, supd_same. apply rl_le_refl.
      * intros p q i j Hpq Hp Hq HE Hi Hj.
        apply nth_error_snoc in Hp as [Hp|[-> ->]].
        2:{ apply nth_error_snoc in Hq as [Hq|[-> ->]]; [|lia].
            assert (q < length (s_heap s))%nat by (apply nth_error_Some; congruence). lia. }
        apply nth_error_snoc in Hq as [Hq|[-> ->]]; [eauto|].
        cbn in *. intros SP.
        destruct (I4 p i Hp Hi) as [A B].
        assert (ST : rl_stage (id_rl i) = rl_stage rl).
        { eapply same_proj_stage; [|exact SP]. auto. }
        destruct (B ST) as (ky0 & C1 & C2 & C3 & C4 & C5).
        assert (NV : key_scope ky <> SValue) by (intros EV; rewrite EV in SP; exact SP).
        rewrite HE in *.
        assert (G2 : same_proj (key_scope ky) (s_copiedAt s k) rl).
        { eapply same_proj_between; eauto. }
        apply greater_than_iff in G2; auto. congruence.
    + eauto.
    + unfold kscope; cbn. exact KSCOPE.
    + right; right; right. split; auto.
      exists (key_scope ky), (length (s_heap s)). eexists.
      repeat (split; auto); [apply nth_error_last|reflexivity|reflexivity|].
      cbn [id_rl]. destruct (scope_eqb (key_scope ky) SValue) eqn:EV.
      * left. assert (key_scope ky = SValue) as -> by (destruct (key_scope ky); cbn in EV; congruence).
        repeat (split; auto). rewrite app_length. cbn. lia.
      * assert (NV : key_scope ky <> SValue) by (intros X; rewrite X in EV; discriminate).
        right. split; auto. now apply same_proj_refl.
  - (* the old copy *)
    inversion H; subst s' r; clear H. cbn [s_copyOf].
    assert (NV : key_scope ky <> SValue).
    { intros EV. rewrite EV in GT. discriminate. }
    apply greater_than_iff in GT; auto.
    split.
    2:{ unfold kscope; cbn. intros k'. rewrite KSCOPE. apply NG. }
    constructor; cbn.
    + destruct I as [I1 I2 I3 I4 I5]. constructor; cbn; auto.
      * intros k0 ky0 X. destruct (KEY _ _ X) as (ky1 & A & B & C). rewrite <- B; eauto.
      * intros k0 ky0 X N0. destruct (KEY _ _ X) as (ky1 & A & B & C). rewrite <- C. auto.
      * intros p i Hp Hi. destruct (I4 p i Hp Hi) as [A B]. split; auto. intros X.
        destruct (B X) as (ky0 & C1 & C2 & C3 & C4 & C5).
        destruct (KEYR _ _ C1) as (ky1 & D1 & D2). exists ky1.
        repeat (split; auto). congruence.
    + exists []; now rewrite app_nil_r.
    + unfold kscope; cbn. exact KSCOPE.
    + right; right. destruct (scope_eqb (key_scope ky) SGlobal) eqn:EG.
      * left. assert (key_scope ky = SGlobal) as EQ by (destruct (key_scope ky); cbn in EG; congruence).
        rewrite EQ in KS. auto.
      * right. assert (NGk : key_scope ky <> SGlobal) by (intros X; rewrite X in EG; discriminate).
        split; auto. exists (key_scope ky).
        destruct (s_copyOf s k) as [p|] eqn:HC.
        -- destruct CO as [n CO]. exists p. eexists. repeat (split; auto); [exact CO|reflexivity|reflexivity|].
           cbn. right; auto.
        -- exfalso. apply same_proj_stage in GT; auto. lia.
Qed.

(** The loaded keys that get a generator. *)
Definition served (s : scopes) (k : string) : bool :=
  negb (String.eqb k PREV) &&
  (String.eqb k NOOP_COLUMN ||
   match kscope s k with Some SGlobal => false | _ => true end).

Lemma copy_served s k rl cur s' r :
  Inv s cur -> rl_le cur rl -> rl_stage cur = rl_stage rl -> (0 < rl_stage rl)%N ->
  (forall k', kscope s k' = Some SGlobal -> s_copyOf s k' = None) ->
  scopes_copy s k rl = Some (s', r) ->
  if served s k then exists p, r = Some p else r = None.
Proof.
  intros I L E P G H. destruct (scopes_copy_ok _ _ _ _ _ _ I L E P G H) as [[_ _ _ R] _].
  unfold served. destruct R as [[-> ->]|[[-> (p & i & -> & _)]|[(N & K & ->)|(N & sc & p & i & K & NG & -> & _)]]].
  - reflexivity.
  - cbn. eauto.
  - rewrite K. destruct (String.eqb_spec k NOOP_COLUMN); [congruence|].
    cbn. now rewrite andb_false_r.
  - destruct (String.eqb_spec k PREV) as [->|NP].
    + cbn in H. discriminate.
    + rewrite K. destruct sc; try congruence; cbn; rewrite orb_true_r; eauto.
Qed.

Lemma served_scope s s' k : (forall k', kscope s' k' = kscope s k') -> served s' k = served s k.
Proof. intros H. unfold served. now rewrite H. Qed.

Definition last_rl (cur : runlevel) (evs : list (runlevel * string)) : runlevel :=
  match rev evs with (rl, _) :: _ => rl | [] => cur end.

(** Sortedness of the visited run levels. *)
Fixpoint sorted_from (cur : runlevel) (evs : list (runlevel * string)) : Prop :=
  match evs with
  | [] => True
  | (rl, _) :: evs' => rl_le cur rl /\ rl_stage cur = rl_stage rl /\ sorted_from rl evs'
  end.

Definition NoGlobal (s : scopes) := forall k', kscope s k' = Some SGlobal -> s_copyOf s k' = None.

(** What a use got, in terms of the final heap. *)
Definition good_use (s0 sF : scopes) (rl : runlevel) (k : string) (r : option nat) : Prop :=
  if served s0 k then
    exists p i, r = Some p /\ nth_error (s_heap sF) p = Some i /\
      (k = NOOP_COLUMN /\ id_scope i = SGlobal \/
       k <> NOOP_COLUMN /\ exists sc, kscope s0 k = Some sc /\ sc <> SGlobal /\ id_key i = k /\ id_scope i = sc /\
         rl_stage (id_rl i) = rl_stage rl /\ (sc <> SValue -> same_proj sc (id_rl i) rl))
  else r = None.

Lemma good_use_mono s0 sF sF' rl k r l :
  s_heap sF' = s_heap sF ++ l -> good_use s0 sF rl k r -> good_use s0 sF' rl k r.
Proof.
  unfold good_use. intros E. destruct (served s0 k); auto.
  intros (p & i & A & B & C). exists p, i. split; auto. split; auto.
  rewrite E. now apply nth_error_app_some.
Qed.

Lemma good_use_scope s0 s1 sF rl k r :
  (forall k', kscope s1 k' = kscope s0 k') -> good_use s1 sF rl k r -> good_use s0 sF rl k r.
Proof. intros E. unfold good_use. rewrite (served_scope _ _ _ E). now rewrite E. Qed.

Lemma copies_ok evs : forall s cur s' ps,
  Inv s cur -> NoGlobal s -> (0 < rl_stage cur)%N -> sorted_from cur evs ->
  copies s evs = Some (s', ps) ->
  exists cur', rl_stage cur' = rl_stage cur /\ Inv s' cur' /\ NoGlobal s' /\
  (exists l, s_heap s' = s_heap s ++ l) /\
  (forall k, kscope s' k = kscope s k) /\
  Forall2 (fun ev r => good_use s s' (fst ev) (snd ev) r) evs ps /\
  (forall n m k rl rl' p q, (n < m)%nat ->
     nth_error evs n = Some (rl, k) -> nth_error evs m = Some (rl', k) ->
     kscope s k = Some SValue -> k <> NOOP_COLUMN ->
     nth_error ps n = Some (Some p) -> nth_error ps m = Some (Some q) -> (p < q)%nat) /\
  (forall m k rl q, nth_error evs m = Some (rl, k) -> kscope s k = Some SValue -> k <> NOOP_COLUMN ->
     nth_error ps m = Some (Some q) -> (length (s_heap s) <= q)%nat).
Proof.
  induction evs as [|[rl k] evs IH]; intros s cur s' ps I G P S H; cbn in H.
  - inv H. exists cur. split; [auto|]. split; [auto|]. split; [auto|].
    split; [exists []; now rewrite app_nil_r|]. split; [auto|]. split; [constructor|].
    split.
    + intros n m ? ? ? ? ? ? X. destruct n; discriminate.
    + intros m ? ? ? X. destruct m; discriminate.
  - destruct S as (L & E & S).
    destruct (scopes_copy s k rl) as [[s1 r]|] eqn:HC; [|discriminate].
    destruct (copies s1 evs) as [[s2 ps']|] eqn:HR; [|discriminate]. inv H.
    assert (P' : (0 < rl_stage rl)%N) by lia.
    destruct (scopes_copy_ok _ _ _ _ _ _ I L E P' G HC) as [OK G1].
    pose proof (copy_served _ _ _ _ _ _ I L E P' G HC) as SV.
    destruct OK as [I1 [l1 H1] K1 R1].
    destruct (IH _ _ _ _ I1 G1 P' S HR) as (cur' & ST & I2 & G2 & [l2 H2] & K2 & F2 & V2 & W2).
    exists cur'. split; [congruence|]. split; auto. split; auto.
    split; [exists (l1 ++ l2); now rewrite H2, H1, app_assoc|].
    split; [intros; now rewrite K2|].
    assert (F1 : good_use s s' rl k r).
    { unfold good_use.
      destruct (served s k) eqn:SVE; auto.
      destruct SV as [p ->].
      destruct R1 as [[_ X]|[[-> (p' & i & X & Y & Z)]|[(N & K & X)|(N & sc & p' & i & K & NG & X & Y & Z1 & Z2 & Z3)]]];
        try discriminate.
      - inv X. exists p', i. split; auto. split; [rewrite H2; now apply nth_error_app_some|]. auto.
      - inv X. exists p', i. split; auto. split; [rewrite H2; now apply nth_error_app_some|].
        right. split; auto. exists (id_scope i). repeat (split; auto).
        + destruct Z3 as [(_ & Z3 & _)|(_ & Z3)]; [congruence|]. eapply same_proj_stage; eauto.
        + intros NV. destruct Z3 as [(Z3 & _)|(_ & Z3)]; [congruence|]. auto. }
    split; [|split].
    + constructor; auto. eapply Forall2_weaken; [|exact F2].
      intros [rl' k'] r'. cbn. apply good_use_scope. auto.
    + intros n m k' rla rlb p q NM Ha Hb KV NN Hp Hq.
      destruct m as [|m]; [lia|]. cbn in Hb, Hq.
      destruct n as [|n]; cbn in Ha, Hp.
      * inv Ha. injection Hp as ->.
        destruct R1 as [[_ X]|[[Y _]|[(_ & _ & X)|(_ & sc & p' & i & K & NG & X & Y & Z1 & Z2 & Z3)]]];
          try discriminate; try congruence.
        inv X. rewrite KV in K. inv K.
        destruct Z3 as [(_ & _ & Z4 & Z5)|(Z4 & _)]; [|congruence].
        assert (length (s_heap s1) <= q)%nat by (eapply W2; eauto; now rewrite K1). lia.
      * eapply V2; [|exact Ha|exact Hb|now rewrite K1|auto|exact Hp|exact Hq]. lia.
    + intros m k' rl' q Hm KV NN Hq.
      destruct m as [|m]; cbn in Hm, Hq.
      * inv Hm. injection Hq as ->.
        destruct R1 as [[_ X]|[[Y _]|[(_ & _ & X)|(_ & sc & p' & i & K & NG & X & Y & Z1 & Z2 & Z3)]]];
          try discriminate; try congruence.
        inv X. rewrite KV in K. inv K. destruct Z3 as [(_ & _ & Z4 & Z5)|(Z4 & _)]; [lia|congruence].
      * assert (length (s_heap s1) <= q)%nat by (eapply W2; eauto; now rewrite K1).
        rewrite H1, app_length in *. lia.
Qed.
