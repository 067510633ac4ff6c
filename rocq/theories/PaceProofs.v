(** Executions of clients are bounded by the ticks of the limiters they share. *)
From Verif Require Import Prelude ListAux ScopeModel StmtModel WorkloadModel WorkloadSpec ClientModel ClientSpec.
From Verif Require Import IterModel IterSpec RateModel RateSpec RateProofs LoopModel LoopSpec LoopProofs PaceModel PaceSpec.

Definition mem (y : nat) (l : list nat) : bool := existsb (Nat.eqb y) l.
Lemma mem_in y l : mem y l = true <-> In y l.
Proof.
  unfold mem. rewrite existsb_exists. split; [intros (z & A & B); apply Nat.eqb_eq in B; now subst|].
  intros H. exists y. split; [exact H|apply Nat.eqb_refl].
Qed.
Lemma mem_not y l : mem y l = false <-> ~ In y l.
Proof. rewrite <- mem_in. destruct (mem y l); split; congruence. Qed.

Definition sum (f : nat -> nat) (l : list nat) : nat := list_sum (map f l).
Lemma sum_cons f z l : sum f (z :: l) = f z + sum f l. Proof. reflexivity. Qed.
Lemma sum_same f f' l : (forall z, In z l -> f z = f' z) -> sum f l = sum f' l.
Proof. induction l as [|z l IH]; intros H; [reflexivity|]. rewrite !sum_cons, IH by (intros; apply H; now right). rewrite H; [lia|now left]. Qed.
Lemma sum_change f f' l y : NoDup l -> (forall z, z <> y -> f z = f' z) ->
  sum f l + (if mem y l then f' y else 0) = sum f' l + (if mem y l then f y else 0).
Proof.
  intros ND H. induction ND as [|z l NI ND IH]; [reflexivity|].
  destruct (Nat.eq_dec z y) as [->|N].
  - unfold mem. cbn [existsb]. rewrite Nat.eqb_refl. cbn [orb]. rewrite !sum_cons, (sum_same f f' l); [lia|].
    intros z Hz. apply H. intros ->. contradiction.
  - unfold mem in *. cbn [existsb]. apply Nat.neq_sym in N as N'. apply Nat.eqb_neq in N'. rewrite N'. cbn [orb].
    rewrite !sum_cons, (H z N). lia.
Qed.
Lemma sum_le f l b : (forall z, f z <= b) -> sum f l <= b * length l.
Proof. intros H. induction l as [|z l IH]; [cbn; lia|]. rewrite sum_cons. cbn [length]. specialize (H z). lia. Qed.

Section Potential.
  Variable nw : net.
  Variable S : list nat.
  Variable x : nat.
  Hypothesis ND : NoDup S.
  Hypothesis XL : nw x = Some KLeaf.
  Hypothesis CL : forall y, In y S -> y <> x -> exists a b, nw y = Some (KAnd a b) /\ (In a S \/ In b S).

  (** permits in the channels of [S], and those And nodes have received from [S] *)
  Definition side (s : qstate) (y : nat) : bool :=
    match nw y with Some (KAnd a b) => if mem a S then q_a s y else q_b s y | _ => false end.
  Definition wt (s : qstate) (y : nat) : nat := b2n (q_buf s y) + b2n (side s y).
  Definition pot (s : qstate) : nat := sum (wt s) S.

  Lemma pot_take s a s1 : q_take s a = Some s1 -> pot s = pot s1 + b2n (mem a S).
  Proof.
    intros H. apply take_buf in H as (B & B1 & A1 & A2).
    assert (SD : forall z, side s1 z = side s z) by (intros z; unfold side; rewrite A1, A2; reflexivity).
    pose proof (sum_change (wt s) (wt s1) S a ND) as X. unfold pot.
    assert (O : forall z, z <> a -> wt s z = wt s1 z).
    { intros z N. unfold wt. rewrite SD, B1, natupd_other; [reflexivity|auto]. }
    specialize (X O). assert (W : wt s a = wt s1 a + 1) by (unfold wt; rewrite SD, B1, natupd_same, B; cbn; lia).
    destruct (mem a S); cbn [b2n]; lia.
  Qed.
  Lemma pot_both s y a b : nw y = Some (KAnd a b) -> pot (q_both s y) <= pot s.
  Proof.
    intros K. unfold pot. pose proof (sum_change (wt (q_both s y)) (wt s) S y ND) as X.
    assert (O : forall z, z <> y -> wt (q_both s y) z = wt s z).
    { intros z N. unfold wt, side. rewrite both_buf, both_a, both_b. apply Nat.neq_sym in N. apply Nat.eqb_neq in N. rewrite N.
      destruct (q_a s y && q_b s y)%bool; reflexivity. }
    specialize (X O). assert (W : wt (q_both s y) y <= wt s y).
    { unfold wt, side. rewrite K, both_buf, both_a, both_b, Nat.eqb_refl.
      destruct (q_a s y) eqn:A, (q_b s y) eqn:B; cbn [andb]; try lia. destruct (mem a S), (q_buf s y); cbn; lia. }
    destruct (mem y S); lia.
  Qed.
  Lemma pot_flag_a s y a b : nw y = Some (KAnd a b) ->
    pot (QState (q_buf s) (natupd (q_a s) y true) (q_b s)) <= pot s + b2n (mem a S).
  Proof.
    intros K. unfold pot. set (s2 := QState _ _ _). pose proof (sum_change (wt s2) (wt s) S y ND) as X.
    assert (O : forall z, z <> y -> wt s2 z = wt s z).
    { intros z N. unfold wt, side. cbn [s2 q_buf q_a q_b]. rewrite natupd_other; auto. }
    specialize (X O). assert (W : wt s2 y <= wt s y + b2n (mem a S)).
    { unfold wt, side. rewrite K. cbn [s2 q_buf q_a q_b]. destruct (mem a S); cbn [b2n]; [|lia]. rewrite natupd_same. destruct (q_a s y); cbn; lia. }
    destruct (mem y S); lia.
  Qed.
  Lemma pot_flag_b s y a b : nw y = Some (KAnd a b) ->
    pot (QState (q_buf s) (q_a s) (natupd (q_b s) y true)) <= pot s + b2n (mem b S).
  Proof.
    intros K. unfold pot. set (s2 := QState _ _ _). pose proof (sum_change (wt s2) (wt s) S y ND) as X.
    assert (O : forall z, z <> y -> wt s2 z = wt s z).
    { intros z N. unfold wt, side. cbn [s2 q_buf q_a q_b]. rewrite natupd_other; auto. }
    specialize (X O). destruct (mem y S) eqn:M; [|lia].
    assert (W : wt s2 y <= wt s y + b2n (mem b S)).
    { unfold wt, side. rewrite K. cbn [s2 q_buf q_a q_b]. destruct (mem a S) eqn:MA; [lia|]. rewrite natupd_same.
      apply mem_in in M. destruct (CL y M) as (a' & b' & K' & I).
      - intros ->. congruence.
      - rewrite K in K'. injection K' as <- <-. destruct I as [I|I]; [apply mem_in in I; congruence|]. apply mem_in in I. rewrite I.
        destruct (q_b s y); cbn; lia. }
    lia.
  Qed.

  (** client code receives from a node of [S] *)
  Definition recv_in (e : qevent) : bool := match e with QRecv y _ => mem y S | _ => false end.
  Lemma pot_step s e s' : qstep nw s e = Some s' -> pot s' + b2n (recv_in e) <= pot s + b2n (is_tick x e).
  Proof.
    destruct e as [z|y|y|y c]; cbn [qstep is_tick recv_in b2n].
    - intros H. destruct (nw z) as [[|a b]|] eqn:K; try discriminate. injection H as <-. rewrite Nat.add_0_r.
      unfold pot. pose proof (sum_change (wt (q_send s z)) (wt s) S z ND) as X.
      assert (O : forall y, y <> z -> wt (q_send s z) y = wt s y).
      { intros y N. unfold wt, side, q_send. cbn [q_buf q_a q_b]. rewrite natupd_other; auto. }
      specialize (X O). destruct (mem z S) eqn:M; [|lia]. apply mem_in in M.
      destruct (Nat.eq_dec z x) as [->|N]; [|destruct (CL z M N) as (? & ? & K' & _); congruence].
      rewrite Nat.eqb_refl. cbn [b2n].
      assert (W : wt (q_send s x) x <= wt s x + 1); [|lia].
      unfold wt, side, q_send. cbn [q_buf q_a q_b]. rewrite natupd_same. destruct (q_buf s x); cbn; lia.
    - destruct (nw y) as [[|a b]|] eqn:K; try discriminate. destruct (q_take s a) as [s1|] eqn:T; [|discriminate].
      intros H. injection H as <-. apply pot_take in T. pose proof (pot_flag_a s1 y a b K) as F.
      pose proof (pot_both (QState (q_buf s1) (natupd (q_a s1) y true) (q_b s1)) y a b K). lia.
    - destruct (nw y) as [[|a b]|] eqn:K; try discriminate. destruct (q_take s b) as [s1|] eqn:T; [|discriminate].
      intros H. injection H as <-. apply pot_take in T. pose proof (pot_flag_b s1 y a b K) as F.
      pose proof (pot_both (QState (q_buf s1) (q_a s1) (natupd (q_b s1) y true)) y a b K). lia.
    - intros H. apply pot_take in H. lia.
  Qed.
  Lemma pot_init : pot qinit = 0.
  Proof using.
    unfold pot. rewrite (sum_same (wt qinit) (fun _ => 0)); [|intros z _; unfold wt, side; cbn; destruct (nw z) as [[|a b]|]; try reflexivity; destruct (mem a S); reflexivity].
    generalize S as l. induction l as [|z l IH]; [reflexivity|]. now rewrite sum_cons, IH.
  Qed.
  Lemma pot_bound s : pot s <= 2 * length S.
  Proof using. clear CL. apply sum_le. intros z. unfold wt. pose proof (b2n_le (q_buf s z)). pose proof (b2n_le (side s z)). lia. Qed.
End Potential.

(** ** The nodes of a limiter which need leaf [x] *)

Fixpoint needing (x : nat) (r : rate) : list nat :=
  match r with
  | RLeaf id _ => if Nat.eqb id x then [id] else []
  | RAnd id a b => match needing x a ++ needing x b with [] => [] | l => id :: l end
  end.
Lemma needing_root x r : needing x r <> [] -> In (rid r) (needing x r).
Proof.
  destruct r as [id n|id a b]; cbn [needing rid].
  - destruct (Nat.eqb id x); [now left|congruence].
  - destruct (needing x a ++ needing x b); [congruence|now left].
Qed.
Lemma needing_leaf x n r : In (x, n) (leaves r) -> In (rid r) (needing x r).
Proof.
  intros H. apply needing_root. revert H. induction r as [id m|id a IHa b IHb]; cbn [leaves needing].
  - intros [H|[]]. injection H as -> ->. rewrite Nat.eqb_refl. discriminate.
  - intros H. apply in_app_or in H as [H|H].
    + specialize (IHa H). destruct (needing x a); [congruence|discriminate].
    + specialize (IHb H). destruct (needing x b); [congruence|]. destruct (needing x a); discriminate.
Qed.
Lemma needing_closed nw x r : present nw r -> forall y, In y (needing x r) -> y <> x ->
  exists a b, nw y = Some (KAnd a b) /\ (In a (needing x r) \/ In b (needing x r)).
Proof.
  induction r as [id n|id a IHa b IHb]; cbn [present needing]; intros P y Y N.
  - destruct (Nat.eqb_spec id x) as [->|]; [|contradiction]. destruct Y as [->|[]]. congruence.
  - destruct P as (K & PA & PB).
    assert (SUB : forall z, In z (needing x a ++ needing x b) -> In z (match needing x a ++ needing x b with [] => [] | l => id :: l end)).
    { intros z. destruct (needing x a ++ needing x b); [auto|]. intros H. now right. }
    assert (Y' : y = id /\ needing x a ++ needing x b <> [] \/ In y (needing x a ++ needing x b)).
    { destruct (needing x a ++ needing x b) as [|z l]; [contradiction|]. destruct Y as [<-|Y]; [left; split; [auto|discriminate]|auto]. }
    destruct Y' as [[-> NE]|Y'].
    + exists (rid a), (rid b). split; [exact K|]. destruct (needing x a) as [|z l] eqn:EA.
      * right. apply SUB. cbn [app]. apply needing_root. exact NE.
      * left. apply SUB. apply in_or_app. left. rewrite <- EA. apply needing_root. rewrite EA. discriminate.
    + apply in_app_or in Y' as [Y'|Y'].
      * destruct (IHa PA y Y' N) as (a' & b' & K' & I). exists a', b'. split; [exact K'|].
        destruct I as [I|I]; [left|right]; apply SUB, in_or_app; now left.
      * destruct (IHb PB y Y' N) as (a' & b' & K' & I). exists a', b'. split; [exact K'|].
        destruct I as [I|I]; [left|right]; apply SUB, in_or_app; now right.
Qed.
Lemma needing_present nw x r : present nw r -> In x (map fst (leaves r)) -> nw x = Some KLeaf.
Proof.
  induction r as [id n|id a IHa b IHb]; cbn [present leaves].
  - intros P [<-|[]]. exact P.
  - intros (_ & PA & PB) H. rewrite map_app in H. apply in_app_or in H as [H|H]; auto.
Qed.

Definition all_needing (q : bool) (x : nat) (cs : list client) : list nat :=
  nodup Nat.eq_dec (concat (map (fun c => match limiter q c with Some r => needing x r | None => [] end) cs)).
Lemma all_needing_closed nw q x cs : limiters_in nw cs -> forall y, In y (all_needing q x cs) -> y <> x ->
  exists a b, nw y = Some (KAnd a b) /\ (In a (all_needing q x cs) \/ In b (all_needing q x cs)).
Proof.
  intros L y Y N. unfold all_needing in *. rewrite nodup_In in Y. apply in_concat in Y as (l & Hl & Y).
  apply in_map_iff in Hl as (c & <- & Hc). destruct (limiter q c) as [r|] eqn:R; [|contradiction].
  destruct (needing_closed nw x r (L q c r Hc R) y Y N) as (a & b & K & I). exists a, b. split; [exact K|].
  assert (SUB : forall z, In z (needing x r) -> In z (nodup Nat.eq_dec (concat (map (fun c => match limiter q c with Some r => needing x r | None => [] end) cs)))).
  { intros z Hz. rewrite nodup_In. apply in_concat. exists (needing x r). split; [|exact Hz]. apply in_map_iff. exists c. now rewrite R. }
  destruct I; [left|right]; auto.
Qed.
Lemma all_needing_root q x n cs c r : In c cs -> limiter q c = Some r -> In (x, n) (leaves r) -> In (rid r) (all_needing q x cs).
Proof.
  intros Hc R H. unfold all_needing. rewrite nodup_In. apply in_concat. exists (needing x r). split; [|eapply needing_leaf; eauto].
  apply in_map_iff. exists c. now rewrite R.
Qed.

(** ** Clients and limiters *)

Section Join.
  Context {V : Type}.
  Notation event := (event V).

  (** The executions of one step of a client: at most one, of the query it is at. *)
  Lemma loop_execs (st : lst V) i inp st' evs : loop_step st i inp = Some (st', evs) ->
    exists k, nth_error (l_cls st) i = Some k /\
      (execs evs = [] \/ exists e s se, execs evs = [e] /\ inp = LStmt se /\ at_query k = Some s /\
         nth_error (c_stmts (l_c k)) (ex_stmt e) = Some s).
  Proof.
    intros H. unfold loop_step in H. destruct (nth_error (l_cls st) i) as [k|] eqn:K; [|discriminate]. exists k. split; [reflexivity|].
    assert (NE : forall ci s pc evs, (forall se, ci <> IStmt se) -> cstep (l_c k) (l_st k) (l_pc k) ci = Some (s, pc, evs) -> execs evs = []).
    { intros ci s pc evs0 N X. apply ClientProofs.step_inv in X. inversion X; subst.
      - rewrite execs_app. match goal with C : connect _ _ _ _ = _ |- _ => apply ClientProofs.connect_inv in C as (_ & Q) end.
        rewrite (execs_quiet _ Q). destruct r; rewrite ?execs_finish; reflexivity.
      - apply execs_finish.
      - reflexivity.
      - exfalso. eapply N; reflexivity. }
    destruct inp as [ce| |se].
    - left. destruct (cstep _ _ _ _) as [[[s pc] e]|] eqn:E; [|discriminate]. destruct (set_nth _ _ _); [|discriminate]. injection H as <- <-.
      eapply NE; [|exact E]. discriminate.
    - left. destruct (l_pc k) eqn:PC; try discriminate. destruct (loop_check _ _) as [cnt [[|]|]].
      + destruct (cstep _ _ _ _) as [[[s pc] e]|] eqn:E; [|discriminate]. destruct (set_nth _ _ _); [|discriminate]. injection H as <- <-.
        eapply NE; [|exact E]. discriminate.
      + destruct (cstep _ _ _ _) as [[[s pc] e]|] eqn:E; [|discriminate]. destruct (set_nth _ _ _); [|discriminate]. injection H as <- <-.
        eapply NE; [|exact E]. discriminate.
      + destruct (set_nth _ _ _); [|discriminate]. injection H as <- <-. reflexivity.
    - destruct (cstep _ _ _ _) as [[[s pc] e]|] eqn:E; [|discriminate]. destruct (set_nth _ _ _); [|discriminate]. injection H as <- <-.
      apply ClientProofs.step_inv in E. inversion E as [| | |n se' st1 evs1 nx X Y]; subst.
      rewrite execs_app. replace (execs (match nx with NStop p => finish s p | _ => [] end)) with (@nil event)
        by (destruct nx; rewrite ?execs_finish; reflexivity). rewrite app_nil_r.
      apply exec_execs in X as (_ & [(X & _)|(e & X & Q & N & _)]); [now left|]. right.
      unfold isq in Q. destruct (nth_error (c_stmts (l_c k)) n) as [s0|] eqn:S; [|discriminate].
      exists e, s0, se. split; [exact X|]. split; [reflexivity|]. rewrite N. split; [|exact S].
      unfold at_query. match goal with P : _ = l_pc k |- _ => rewrite <- P end. rewrite S. unfold is_idle in Q. rewrite negb_involutive in Q. now rewrite Q.
  Qed.

  Lemma loop_clients (st : lst V) i inp st' evs : loop_step st i inp = Some (st', evs) -> map l_c (l_cls st') = map l_c (l_cls st).
  Proof.
    intros H. apply loop_inv in H as (k & k' & K & S & C & _). exact (IterProofs.sumn_set_map l_c _ _ _ _ _ K S C).
  Qed.

  Variable nw : net.
  Variable cs : list client.
  Variable q : bool.
  Variable x : nat.
  Variable I : list nat.
  Hypothesis NI : NoDup I.
  Hypothesis LI : limiters_in nw cs.
  Hypothesis IX : forall j, In j I -> exists c r n, nth_error cs j = Some c /\ limiter q c = Some r /\ In (x, n) (leaves r).

  Let S := all_needing q x cs.
  Definition weight (st : pst V) : nat := pot nw S (p_q st) + sum (fun i => b2n (got st q i)) I.
  Definition counted (l : list (nat * event)) : nat :=
    length (filter (fun y => mem (fst y) I && match nth_error cs (fst y) with Some c => counts q c (snd y) | None => false end)%bool l).
  Definition ticks (tr : list (pevent V)) : nat := length (filter (fun e => match e with PLim e => is_tick x e | _ => false end) tr).

  Lemma counted_one i c (evs : list event) : nth_error cs i = Some c ->
    counted (map (fun e => (i, e)) evs) = if mem i I then length (filter (counts q c) (execs evs)) else 0.
  Proof.
    intros C. unfold counted. induction evs as [|e evs IH]; cbn [map filter execs fst snd].
    - now destruct (mem i I).
    - rewrite C. destruct (mem i I); cbn [andb] in *; [|exact IH]. unfold execs in *. cbn [filter]. destruct (is_exec e) eqn:X.
      + cbn [filter]. destruct (counts q c e); cbn [length]; rewrite IH; reflexivity.
      + unfold counts at 1. rewrite X. exact IH.
  Qed.

  Hypothesis XL : nw x = Some KLeaf.
  Lemma S_ok : NoDup S /\ (forall y, In y S -> y <> x -> exists a b, nw y = Some (KAnd a b) /\ (In a S \/ In b S)).
  Proof using LI. split; [apply NoDup_nodup|]. now apply all_needing_closed. Qed.

  Lemma got_put (st : pst V) (l : lst V) s (b : bool) i (q' : bool) j : got (if q' then PSt l s (p_tps st) (natupd (p_qps st) i b) else PSt l s (natupd (p_tps st) i b) (p_qps st)) q j =
    (if (Bool.eqb q' q && Nat.eqb i j)%bool then b else got (V := V) st q j).
  Proof.
    unfold got. destruct q', q; cbn [p_tps p_qps Bool.eqb andb]; rewrite ?natupd_eq; reflexivity.
  Qed.

  Lemma weight_step (st : pst V) e st' evs : map l_c (l_cls (p_loop st)) = cs -> pace_step nw st e = Some (st', evs) ->
    map l_c (l_cls (p_loop st')) = cs /\ weight st' + counted evs <= weight st + ticks [e].
  Proof using NI LI IX XL.
    intros CS H. destruct S_ok as (NS & CL).
    assert (AT : forall i k, nth_error (l_cls (p_loop st)) i = Some k -> nth_error cs i = Some (l_c k)).
    { intros i k K. rewrite <- CS, nth_error_map, K. reflexivity. }
    destruct e as [e|q' i|i inp]; cbn [pace_step] in H.
    - assert (H' : match qstep nw (p_q st) e with None => None | Some s' => Some (PSt (p_loop st) s' (p_tps st) (p_qps st), []) end = Some (st', evs))
        by (destruct e; [exact H|exact H|exact H|discriminate]). clear H.
      destruct (qstep nw (p_q st) e) as [s'|] eqn:E; [|discriminate]. injection H' as <- <-. split; [exact CS|].
      pose proof (pot_step nw S x NS XL CL _ _ _ E) as P. unfold weight, counted, ticks. cbn [p_q filter length].
      change (sum (fun i => b2n (got (PSt (p_loop st) s' (p_tps st) (p_qps st)) q i)) I) with (sum (fun i => b2n (got st q i)) I).
      destruct (is_tick x e); cbn [b2n length] in *; lia.
    - unfold pace_permit in H. destruct (nth_error (l_cls (p_loop st)) i) as [k|] eqn:K; [|discriminate].
      destruct (at_query k) as [s|]; [|discriminate]. destruct (waits q' (l_c k) s) as [r|] eqn:W; [|discriminate].
      destruct (got st q' i || _)%bool eqn:G; [discriminate|]. apply orb_false_iff in G as [G _].
      destruct (qstep nw (p_q st) (QRecv (rid r) i)) as [s'|] eqn:E; [|discriminate]. injection H as <- <-.
      split; [destruct q'; exact CS|]. pose proof (pot_step nw S x NS XL CL _ _ _ E) as P. cbn [is_tick recv_in b2n] in P.
      unfold weight, counted, ticks. cbn [filter length]. rewrite !Nat.add_0_r.
      replace (p_q (if q' then _ else _)) with s' by (destruct q'; reflexivity).
      rewrite (sum_same _ (fun j => b2n (if (Bool.eqb q' q && Nat.eqb i j)%bool then true else got st q j)))
        by (intros j _; f_equal; apply (got_put st (p_loop st) s' true i q' j)).
      destruct (Bool.eqb_spec q' q) as [->|N]; cbn [andb].
      + pose proof (sum_change (fun j => b2n (if Nat.eqb i j then true else got st q j)) (fun j => b2n (got st q j)) I i NI) as X.
        assert (O : forall z, z <> i -> b2n (if Nat.eqb i z then true else got st q z) = b2n (got st q z)).
        { intros z Hz. apply Nat.neq_sym in Hz. apply Nat.eqb_neq in Hz. now rewrite Hz. }
        specialize (X O). cbn beta in X. rewrite Nat.eqb_refl, G in X. cbn [b2n] in X. destruct (mem i I) eqn:M; [|lia].
        apply mem_in in M. destruct (IX i M) as (c & r' & n & C & R & L). rewrite (AT i k K) in C. injection C as <-.
        assert (r' = r) as ->. { unfold waits in W. unfold limiter in R. destruct q; [congruence|]. destruct (st_begin s); congruence. }
        assert (Z : In (rid r) S) by (eapply all_needing_root; eauto; eapply nth_error_In; exact (AT i k K)).
        apply mem_in in Z. rewrite Z in P. cbn [b2n] in P. lia.
      + lia.
    - unfold pace_loop in H. destruct (nth_error (l_cls (p_loop st)) i) as [k|] eqn:K; [|discriminate].
      match type of H with match (if ?b then _ else _) with _ => _ end = _ => destruct b eqn:RDY end; [|discriminate].
      destruct (loop_step (p_loop st) i inp) as [[l' e]|] eqn:E; [|discriminate]. injection H as <- <-. cbn [p_loop].
      split; [rewrite (loop_clients _ _ _ _ _ E); exact CS|].
      unfold weight, ticks. cbn [p_q filter length]. rewrite Nat.add_0_r, (counted_one i (l_c k)) by auto.
      rewrite (sum_same _ (fun j => b2n (if Nat.eqb i j then false else got st q j)))
        by (intros j _; f_equal; unfold got; cbn [p_tps p_qps]; destruct q; apply natupd_eq).
      pose proof (sum_change (fun j => b2n (if Nat.eqb i j then false else got st q j)) (fun j => b2n (got st q j)) I i NI) as X.
      assert (O : forall z, z <> i -> b2n (if Nat.eqb i z then false else got st q z) = b2n (got st q z)).
      { intros z Hz. apply Nat.neq_sym in Hz. apply Nat.eqb_neq in Hz. now rewrite Hz. }
      specialize (X O). cbn beta in X. rewrite Nat.eqb_refl in X. cbn [b2n] in X. destruct (mem i I) eqn:M; [|lia].
      apply mem_in in M. destruct (IX i M) as (c & r & n & C & R & L). rewrite (AT i k K) in C. injection C as <-.
      destruct (loop_execs _ _ _ _ _ E) as (k' & K' & Y). rewrite K in K'. injection K' as <-.
      destruct Y as [Y|(e0 & s & se & Y & -> & Q & Z)]; [rewrite Y; cbn; lia|]. rewrite Y. cbn [filter length].
      destruct (counts q (l_c k) e0) eqn:CT; cbn [length]; [|lia]. rewrite Q in RDY. apply andb_true_iff in RDY as [R1 R2].
      assert (GT : got st q i = true).
      { unfold counts in CT. rewrite Z in CT. apply andb_true_iff in CT as [_ CT]. unfold granted, waits in R1, R2. unfold limiter in R.
        destruct q; [now rewrite R in R2|]. cbn [orb] in CT. rewrite CT in R1. now rewrite R in R1. }
      rewrite GT in X. cbn [b2n] in X. lia.
  Qed.

  Lemma ticks_cons e tr : ticks (e :: tr) = ticks [e] + ticks tr.
  Proof. unfold ticks. cbn [filter]. destruct e as [e| |]; try reflexivity. destruct (is_tick x e); reflexivity. Qed.
  Lemma counted_app a b : counted (a ++ b) = counted a + counted b.
  Proof. unfold counted. now rewrite filter_app, app_length. Qed.

  Lemma weight_run tr : forall (st : pst V) st' evs, map l_c (l_cls (p_loop st)) = cs -> pace_run nw st tr = Some (st', evs) ->
    map l_c (l_cls (p_loop st')) = cs /\ weight st' + counted evs <= weight st + ticks tr.
  Proof using NI LI IX XL.
    induction tr as [|e tr IH]; intros st st' evs CS H; cbn [pace_run] in H.
    - injection H as <- <-. split; [exact CS|]. cbn. lia.
    - destruct (pace_step nw st e) as [[st1 ev1]|] eqn:E; [|discriminate].
      destruct (pace_run nw st1 tr) as [[st2 ev2]|] eqn:R; [|discriminate]. injection H as <- <-.
      destruct (weight_step _ _ _ _ CS E) as (CS1 & W1). destruct (IH _ _ _ CS1 R) as (CS2 & W2). split; [exact CS2|].
      rewrite counted_app, ticks_cons. lia.
  Qed.

  Lemma weight_init : weight (pace_init cs) = 0.
  Proof using.
    clear IX LI NI.
    unfold weight, pace_init. cbn [p_q]. rewrite pot_init. cbn [Nat.add].
    rewrite (sum_same _ (fun _ => 0)); [|intros j _; unfold got; cbn; now destruct q].
    generalize I as l. induction l as [|z l IH]; [reflexivity|]. now rewrite sum_cons, IH.
  Qed.
  Lemma weight_bound (st : pst V) : weight st <= 2 * length S + length I.
  Proof using.
    clear IX LI.
    unfold weight. pose proof (pot_bound nw S (p_q st)).
    assert (sum (fun i => b2n (got st q i)) I <= 1 * length I) by (apply sum_le; intros; apply b2n_le). lia.
  Qed.
End Join.
