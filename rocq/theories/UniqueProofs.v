(** Values that the clients of a client group do not share. *)
From Verif Require Import Prelude ListAux ScopeModel ScopeSpec CallProofs StmtModel WorkloadModel WorkloadSpec ClientModel ClientSpec ServedProofs
  ValueModel ValueSpec ValueProofs ValueCallProofs EndSpec EndProofs EndValueProofs GenModel DataModel DataSpec DataProofs SharedSpec SharedProofs.
From Verif Require ConfigModel TrxModel PipeModel GenProofs GenProps RunProofs.
#[local] Open Scope string_scope.
#[local] Open Scope list_scope.

(** ** The calls of one client in a history *)
Section Calls.
  Context {V : Type}.
  Lemma call_value t (tr : list (mevent V)) v : In v (map snd (calls_by t tr)) -> In v (all_values tr).
  Proof.
    intros I. apply in_map_iff in I as ([rc v'] & <- & I). unfold calls_by in I. apply in_flat_map in I as (e & E1 & E2).
    destruct e as [|t' rc' v''|]; [destruct E2| |destruct E2]. destruct (Nat.eqb t' t); [|destruct E2]. destruct E2 as [E2|[]]. injection E2 as <- <-.
    unfold all_values. apply in_flat_map. eexists. split; [exact E1|]. now left.
  Qed.
  Lemma calls_one t1 t2 (tr : list (mevent V)) v : NoDup (all_values tr) -> In v (map snd (calls_by t1 tr)) -> In v (map snd (calls_by t2 tr)) -> t1 = t2.
  Proof.
    induction tr as [|e tr IH]; intros ND I1 I2; [destruct I1|].
    destruct e as [t ex rc|t rc x|t x]; cbn [calls_by all_values flat_map] in *; try (apply IH; auto; fail).
    inversion ND as [|? ? N1 N2]; subst.
    assert (X : forall t', In v (map snd ((if Nat.eqb t t' then [(rc, x)] else []) ++ calls_by t' tr)) -> (t = t' /\ v = x) \/ In v (map snd (calls_by t' tr))).
    { intros t' I. rewrite map_app in I. apply in_app_or in I as [I|I]; [|auto]. destruct (Nat.eqb_spec t t'); [|destruct I]. destruct I as [I|[]]. left. auto. }
    destruct (X _ I1) as [[A1 A2]|A]; destruct (X _ I2) as [[B1 B2]|B].
    - congruence.
    - exfalso. subst v. apply N1. exact (call_value _ _ _ B).
    - exfalso. subst v. apply N1. exact (call_value _ _ _ A).
    - auto.
  Qed.
  Lemma calls_nodup t (tr : list (mevent V)) : NoDup (all_values tr) -> NoDup (map snd (calls_by t tr)).
  Proof.
    induction tr as [|e tr IH]; intros ND; [constructor|]. destruct e as [t' ex rc|t' rc x|t' x]; cbn [calls_by all_values flat_map] in *; auto.
    inversion ND as [|? ? N1 N2]; subst. destruct (Nat.eqb t' t); cbn [app map]; [|auto]. constructor; [|auto]. intros I. apply N1. exact (call_value _ _ _ I).
  Qed.
End Calls.

Lemma returns_in {V} counter us : forall seen (newest : list V) vs v, In v (returns counter seen newest us vs) -> v = newest \/ In v vs.
Proof.
  induction us as [|u us IH]; intros seen newest vs v I; [destruct I|]. cbn [returns] in I. destruct (new_call counter seen u).
  - destruct vs as [|x vs]; [destruct I|]. destruct I as [<-|I]; [right; now left|]. destruct (IH _ _ _ _ I) as [->|X]; right; [now left|now right].
  - destruct I as [<-|I]; [now left|]. exact (IH _ _ _ _ I).
Qed.
Lemma returns_vs {V} counter us (vs : list (list V)) v : In v (returns counter [] [] us vs) -> In v vs.
Proof.
  destruct us as [|u us]; intros I; [destruct I|]. cbn [returns] in I. unfold new_call in I. cbn in I. rewrite orb_true_r in I.
  destruct vs as [|x vs]; [destruct I|]. destruct I as [<-|I]; [now left|]. destruct (returns_in _ _ _ _ _ _ I) as [->|X]; [now left|now right].
Qed.

(** ** auto-inc *)
Lemma inc_run cs : forall i src, snd (gen_run dgen_values (GInc i, src) cs) = map (fun v => [DUint v]) (calls auto_inc_values i (length cs)).
Proof.
  induction cs as [|rc cs IH]; intros i src; [reflexivity|]. cbn [gen_run length calls]. unfold dgen_values at 1. cbn [fst snd gen_values].
  destruct (auto_inc_values i) as [i1 v]. specialize (IH i1 (fun n => src (S n))). destruct (gen_run _ _ _) as [g2 vs]. cbn [snd map] in *. now rewrite IH.
Qed.
Lemma calls_len k : forall (i : auto_inc), length (calls auto_inc_values i k) = k.
Proof. induction k as [|k IH]; intros i; [reflexivity|]. cbn. now rewrite IH. Qed.

Lemma inc_nodup fl ps g0 src cs : gen_make fl "auto-inc" ps = Some g0 -> before_overflow ps (length cs) -> NoDup (snd (gen_run dgen_values (g0, src) cs)).
Proof.
  intros M B. cbn in M. destruct (new_auto_inc (uint_of ps "start") (uint_of ps "step")) as [i0|] eqn:E; [|discriminate]. injection M as <-.
  assert (X : exists start, i0 = AutoInc start (unum ps "step" 1)).
  { unfold uint_of in E. unfold new_auto_inc, unum in *. destruct (ConfigModel.sget "start" ps) as [s|]; cbn [option_map] in E.
    - destruct (TrxModel.parse_uint64 s); [|discriminate]. destruct (ConfigModel.sget "step" ps) as [s'|]; cbn [option_map] in E; [destruct (TrxModel.parse_uint64 s'); [|discriminate]|]; injection E as <-; eauto.
    - destruct (ConfigModel.sget "step" ps) as [s'|]; cbn [option_map] in E; [destruct (TrxModel.parse_uint64 s'); [|discriminate]|]; injection E as <-; eauto. }
  destruct X as (start & ->). rewrite inc_run.
  assert (ND : NoDup (calls auto_inc_values (AutoInc start (unum ps "step" 1)) (length cs))).
  { assert (LT : forall i j v, nth_error (calls auto_inc_values (AutoInc start (unum ps "step" 1)) (length cs)) i = Some v ->
      nth_error (calls auto_inc_values (AutoInc start (unum ps "step" 1)) (length cs)) j = Some v -> (i < j)%nat -> False).
    { intros i j v A C L. apply (GenProps.C11_no_duplicates start (unum ps "step" 1) _ (length cs) i j v v eq_refl A C L); [|reflexivity].
      assert (J : (j < length cs)%nat) by (rewrite <- (calls_len (length cs) (AutoInc start (unum ps "step" 1))); apply nth_error_Some; congruence).
      unfold before_overflow in B. cbv zeta in B. lia. }
    apply NoDup_nth_error. intros i j L Q. destruct (nth_error (calls auto_inc_values (AutoInc start (unum ps "step" 1)) (length cs)) i) as [v|] eqn:N1; [|apply nth_error_None in N1; lia].
    symmetry in Q. destruct (Nat.lt_trichotomy i j) as [H|[H|H]]; [|exact H|]; exfalso; eauto. }
  apply FinFun.Injective_map_NoDup; [|exact ND]. intros x y Q. congruence.
Qed.

(** ** One history *)
Section History.
  Context (gen0 : nat -> dgen) (p : nat) (s : mst dgen dval) (tr : list (mevent dval)).
  Hypothesis H : history gen0 p s tr.
  Hypothesis T : trace_ok (fun k => N.of_nat (k + 1)) tr.

  Lemma numbers_inj : forall t t' : nat, N.of_nat (t + 1) = N.of_nat (t' + 1) -> t = t'.
  Proof. intros; lia. Qed.
  Lemma history_values : snd (gen_run dgen_values (gen0 p) (all_calls tr)) = all_values tr.
  Proof. destruct H as (ls & R). destruct (multi_client_ok dgen_values (fun k => N.of_nat (k + 1)) _ _ _ _ numbers_inj R T) as [A _]. now rewrite A. Qed.
  Lemma history_client k log : takes_part log p k s tr ->
    map fst (calls_by k tr) = calling rc_iter [] (uses_in p (groups log)) /\
    values_in p (groups log) = returns rc_iter [] [] (uses_in p (groups log)) (map snd (calls_by k tr)).
  Proof.
    intros (A & B & C). destruct H as (ls & R). destruct (multi_client_ok dgen_values (fun k => N.of_nat (k + 1)) _ _ _ _ numbers_inj R T) as [_ X].
    destruct (X k C) as [X1 X2]. rewrite A, B. auto.
  Qed.
  Lemma history_len k log : takes_part log p k s tr -> length (map snd (calls_by k tr)) = length (calling rc_iter [] (uses_in p (groups log))).
  Proof. intros X. destruct (history_client _ _ X) as [<- _]. now rewrite !map_length. Qed.

  Lemma two_clients k1 k2 log1 log2 v : NoDup (all_values tr) -> takes_part log1 p k1 s tr -> takes_part log2 p k2 s tr ->
    In v (values_in p (groups log1)) -> In v (values_in p (groups log2)) -> k1 = k2.
  Proof.
    intros ND X1 X2 I1 I2. destruct (history_client _ _ X1) as [_ V1]. destruct (history_client _ _ X2) as [_ V2]. rewrite V1 in I1. rewrite V2 in I2.
    exact (calls_one _ _ _ _ ND (returns_vs _ _ _ _ I1) (returns_vs _ _ _ _ I2)).
  Qed.
End History.

(** ** The keys of a client *)
Section Client.
  Context (fl : string -> bool) (P : PipeModel.penv) (cs : list ConfigModel.stage) (l : list (ConfigModel.stage * TrxModel.tset)).
  Notation sts := (map (fun x => PipeModel.stage_of P (fst x) (snd x)) l).
  Context (w' : wst) (outs : list (list (list (list client)))).
  Hypothesis OK : run_ok sts.
  Hypothesis PR : prepare_all sts (WSt scopes_new 0) = Some (w', outs).
  Context (a e g : nat) (n : N) (gen0 : nat -> dgen) (key : string).
  Notation ks := (keys_at no_keys sts a).
  Hypothesis NN : key <> NOOP_COLUMN.
  Hypothesis NP : key <> PREV.
  Hypothesis SC : scope_in ks key = Some SClientGroup.

  Lemma same_ptr k1 k2 lens1 lens2 i1 i2 j1 j2 p1 p2 : used_at sts outs a (place_of e g k1 n lens1 i1 j1) key p1 ->
    used_at sts outs a (place_of e g k2 n lens2 i2 j2) key p2 -> p1 = p2.
  Proof using OK PR NN SC.
    intros U1 U2. apply (RunProofs.one_generator_per_instance sts 0 w' outs a a _ _ key key _ _ OK PR U1 U2 NN NN). split; [reflexivity|]. exists SClientGroup. split; [exact SC|]. cbn. auto.
  Qed.

  Lemma map_some_inj {V} : forall x y : list V, map Some x = map Some y -> x = y.
  Proof. induction x as [|v x IH]; intros [|v' y] M; try discriminate; [reflexivity|]. cbn in M. injection M as -> M. f_equal. auto. Qed.

  Lemma value_of {V} {G} p (gs : list (vlog G V)) m i rc us j u : nth_error (groups gs) m = Some (i, rc, us) -> nth_error us j = Some u -> u_ptr u = p -> In (u_vals u) (values_in p (groups gs)).
  Proof.
    intros A B C. unfold values_in. apply in_flat_map. exists (i, rc, us). split; [eapply nth_error_In; eauto|]. apply in_map. apply filter_In.
    split; [eapply nth_error_In; eauto|]. now apply Nat.eqb_eq.
  Qed.

  Context (d : ConfigModel.data).
  Hypothesis PM : PipeModel.pe_make P = data_make fl.
  Hypothesis LD : PipeModel.load_stages P cs [] = Some l.
  Hypothesis GM : gens_made fl l sts outs a gen0.
  Hypothesis CF : configured l a key d.
  Hypothesis AI : ConfigModel.d_gen d = "auto-inc".

  Lemma group_nodup pl p s tr : used_at sts outs a pl key p -> history gen0 p s tr -> trace_ok (fun k => N.of_nat (k + 1)) tr ->
    before_overflow (ConfigModel.d_params d) (length (all_calls tr)) -> NoDup (all_values tr).
  Proof using PM LD GM CF AI SC.
    intros U H T B. rewrite <- (history_values _ _ _ _ H T).
    destruct (shared_made fl P cs l a key d PM LD CF) as [g0 M]. { exists SClientGroup. split; [exact SC|now left]. }
    destruct (GM _ _ _ _ _ CF U M) as [CP LE]. pose proof (copy_make fl _ _ _ M) as CM. rewrite CM in CP. injection CP as CP.
    destruct (gen0 p) as [g1 src]. cbn [fst] in CP. subst g1. rewrite AI in M. eapply inc_nodup; eauto.
  Qed.

  Section Clients.
    Context (k1 k2 : nat) (c1 c2 : client) (lens1 lens2 : list nat).
    Hypothesis CL1 : client_of sts outs a e g k1 n c1 lens1.
    Hypothesis CL2 : client_of sts outs a e g k2 n c2 lens2.
    Hypothesis NG1 : no_global ks c1.
    Hypothesis NG2 : no_global ks c2.
    Context (inps1 : list (cinput dval * (nat -> option dgen))) (st1 : cst dval) (pc1 : cpc) (w1 : world (G := dgen) (V := dval)) (evs1 : list (event dval)) (log1 : list (vlog dgen dval)).
    Context (inps2 : list (cinput dval * (nat -> option dgen))) (st2 : cst dval) (pc2 : cpc) (w2 : world (G := dgen) (V := dval)) (evs2 : list (event dval)) (log2 : list (vlog dgen dval)).
    Hypothesis R1 : vrun dgen_values (own_of w') (EndSpec.scope_of w') gen0 c1 inps1 = Some (st1, pc1, w1, evs1, log1).
    Hypothesis R2 : vrun dgen_values (own_of w') (EndSpec.scope_of w') gen0 c2 inps2 = Some (st2, pc2, w2, evs2, log2).
    Hypothesis SZ1 : sized c1 log1.
    Hypothesis SZ2 : sized c2 log2.
    Hypothesis GR : group_runs sts outs a gen0 [(k1, log1); (k2, log2)] key (before_overflow (ConfigModel.d_params d)).

    Lemma unique_clients ex1 s1 j1 ex2 s2 j2 : In ex1 (execs evs1) -> In ex2 (execs evs2) -> exec_uses c1 ex1 s1 j1 key -> exec_uses c2 ex2 s2 j2 key ->
      k1 <> k2 -> vals_at s1 j1 ex1 <> vals_at s2 j2 ex2.
    Proof using OK PR NN NP SC PM LD GM CF AI CL1 CL2 NG1 NG2 R1 R2 SZ1 SZ2 GR.
      intros I1 I2 U1 U2 NE EQ. apply in_split in I1 as (pre1 & post1 & E1). apply in_split in I2 as (pre2 & post2 & E2).
      assert (SG : SClientGroup <> SGlobal) by discriminate.
      destruct (shared_use dgen_values gen0 sts 0 w' outs OK PR a e g k1 n c1 lens1 CL1 NG1 _ _ _ _ _ _ R1 key _ NN NP SC SG _ _ _ _ _ SZ1 E1 U1) as (rc1 & us1 & m1 & u1 & A1 & A2 & A3 & A4).
      destruct (shared_use dgen_values gen0 sts 0 w' outs OK PR a e g k2 n c2 lens2 CL2 NG2 _ _ _ _ _ _ R2 key _ NN NP SC SG _ _ _ _ _ SZ2 E2 U2) as (rc2 & us2 & m2 & u2 & B1 & B2 & B3 & B4).
      pose proof (same_ptr _ _ _ _ _ _ _ _ _ _ A3 B3) as PE. rewrite A4, B4 in EQ. apply map_some_inj in EQ.
      destruct (GR _ _ A3) as (s & tr & H & T & F & TP). pose proof (group_nodup _ _ _ _ A3 H T F) as ND. apply NE.
      apply (two_clients gen0 _ _ _ H T k1 k2 log1 log2 (u_vals u1) ND).
      - apply TP. now left.
      - apply TP. right. now left.
      - eapply value_of; eauto.
      - rewrite EQ. eapply value_of; eauto.
    Qed.
  End Clients.

  Section Iters.
    Context (k : nat) (c : client) (lens : list nat).
    Hypothesis CL : client_of sts outs a e g k n c lens.
    Hypothesis TS : trx_start_with_query c lens.
    Hypothesis NG : no_global ks c.
    Context (inps : list (cinput dval * (nat -> option dgen))) (st : cst dval) (pc : cpc) (w : world (G := dgen) (V := dval)) (evs : list (event dval)) (log : list (vlog dgen dval)).
    Hypothesis R : vrun dgen_values (own_of w') (EndSpec.scope_of w') gen0 c inps = Some (st, pc, w, evs, log).
    Hypothesis SZ : sized c log.
    Context (few : nat -> Prop).
    Hypothesis GR : group_runs sts outs a gen0 [(k, log)] key few.
    Context (pre : list (event dval)) (e1 : event dval) (mid : list (event dval)) (e2 : event dval) (post : list (event dval)) (s1 s2 : stmt) (j1 j2 : nat).
    Hypothesis E : execs evs = pre ++ e1 :: mid ++ e2 :: post.
    Hypothesis U1 : exec_uses c e1 s1 j1 key.
    Hypothesis U2 : exec_uses c e2 s2 j2 key.

    Lemma two_iters :
      (same_scope SIter lens e1 mid e2 -> never_called c key -> vals_at s1 j1 e1 = vals_at s2 j2 e2) /\
      (~ same_scope SIter lens e1 mid e2 -> (forall x, few x -> before_overflow (ConfigModel.d_params d) x) -> vals_at s1 j1 e1 <> vals_at s2 j2 e2).
    Proof using OK PR NN NP SC PM LD GM CF AI CL TS NG R SZ GR E U1 U2.
      assert (E' : execs evs = (pre ++ e1 :: mid) ++ e2 :: post) by (rewrite <- app_assoc; exact E).
      assert (SG : SClientGroup <> SGlobal) by discriminate.
      destruct (shared_use dgen_values gen0 sts 0 w' outs OK PR a e g k n c lens CL NG _ _ _ _ _ _ R key _ NN NP SC SG _ _ _ _ _ SZ E U1) as (rc1 & us1 & m1 & u1 & A1 & A2 & A3 & A4).
      destruct (shared_use dgen_values gen0 sts 0 w' outs OK PR a e g k n c lens CL NG _ _ _ _ _ _ R key _ NN NP SC SG _ _ _ _ _ SZ E' U2) as (rc2 & us2 & m2 & u2 & B1 & B2 & B3 & B4).
      pose proof (same_ptr _ _ _ _ _ _ _ _ _ _ A3 B3) as PE. rewrite app_length in B1. cbn [length] in B1.
      destruct (GR _ _ A3) as (s & tr & H & T & F & TP). specialize (TP k log (or_introl eq_refl)).
      destruct (history_client gen0 _ _ _ H T _ _ TP) as [_ V]. pose proof (history_len gen0 _ _ _ H T _ _ TP) as LV.
      pose proof (client_has_trx sts 0 w' outs OK PR a e g k n c lens CL) as TRX.
      assert (NE : c_stmts c <> []) by (destruct U1 as [X _]; intros Y; rewrite Y in X; destruct (ex_stmt e1); discriminate).
      assert (SI : single_client SIter) by (right; right; now left).
      pose proof (uses_counting dgen_values _ _ gen0 c lens TRX TS _ _ _ _ _ _ SIter (u_ptr u1) SI R) as CN. change (scope_counter SIter) with rc_iter in CN.
      destruct (groups_match dgen_values _ _ gen0 c _ _ _ _ _ _ R) as (rest & FM & EG & _).
      assert (RC : forall m ex i rc us, nth_error (execs evs) m = Some ex -> nth_error (groups log) m = Some (i, rc, us) -> ex_rc ex = rc).
      { intros m ex i rc us N1 N2. assert (LT : (m < length (execs evs))%nat) by (apply nth_error_Some; congruence).
        assert (LL : length (execs evs) = length (firstn (length (execs evs)) (groups log))) by exact (forall2_len FM).
        rewrite EG in N2. rewrite nth_error_app1 in N2 by lia. destruct (Forall2_nth _ _ _ _ _ _ FM N1 N2) as (_ & X & _). exact X. }
      assert (RC1 : ex_rc e1 = rc1). { refine (RC _ _ _ _ _ _ A1). rewrite E, nth_error_app2, Nat.sub_diag by lia. reflexivity. }
      assert (RC2 : ex_rc e2 = rc2). { refine (RC _ _ _ _ _ _ B1). rewrite E, nth_error_app2 by lia. replace (_ - _)%nat with (S (length mid)) by lia. cbn. rewrite nth_error_app2, Nat.sub_diag by lia. reflexivity. }
      assert (X1 : is_exec e1 = true). { assert (I : In e1 (execs evs)) by (rewrite E; apply in_app_iff; right; now left). now apply filter_In in I. }
      destruct (vrun_ind dgen_values _ _ gen0 c (fun _ _ _ _ _ => True) I ltac:(auto) _ _ _ _ _ _ R) as [_ (inps' & R')].
      pose proof (delta_ok c lens TRX TS NE _ _ _ _ _ _ _ _ _ SIter SI R' E) as D. cbn [scope_counter] in D. rewrite RC1, RC2 in D.
      pose proof (delta_same lens SIter e1 mid e2 SI X1) as DS.
      destruct (pos_ok dgen_values (own_of w') (EndSpec.scope_of w') gen0 (u_ptr u1) _ _ _ _ _ _ _ A1 A2 eq_refl) as [P1 Q1]. destruct (pos_ok dgen_values (own_of w') (EndSpec.scope_of w') gen0 (u_ptr u1) _ _ _ _ _ _ _ B1 B2 (eq_sym PE)) as [P2 Q2].
      pose proof (pos_lt dgen_values (own_of w') (EndSpec.scope_of w') gen0 (u_ptr u1) (groups log) _ (length pre + S (length mid)) _ _ _ _ _ us2 m2 A1 A2 eq_refl ltac:(lia)) as LT.
      rewrite A4, B4. split.
      - intros SM NC. f_equal. apply DS in SM. rewrite V in Q1, Q2.
        assert (CE : rc_iter (snd (u_explicit u1, rc1)) = rc_iter (snd (u_explicit u2, rc2))) by (cbn [snd]; lia).
        assert (IM : forall u, In u (uses_in (u_ptr u1) (groups log)) -> fst u = false).
        { apply (uses_implicit dgen_values _ _ gen0 c _ _ _ _ _ _ _ R). intros i (d0 & D0 & I0).
          destruct (inputs_slot sts 0 w' outs OK PR a e g k n c lens CL _ _ _ _ D0 I0) as (s0 & j0 & key' & S0 & B0 & C0 & U0).
          assert (SCO : EndSpec.scope_of w' (u_ptr u1) = SClientGroup) by (apply (used_scope sts 0 w' outs OK PR) in A3; auto; congruence).
          assert (N' : key' <> NOOP_COLUMN). { intros ->. apply (noop_scope sts 0 w' outs OK PR) in U0. congruence. }
          destruct (RunProofs.one_generator_per_instance sts 0 w' outs a a _ _ key key' _ _ OK PR A3 U0 NN N') as [Y _]. destruct (Y eq_refl) as [<- _].
          exact (NC s0 j0 (nth_error_In _ _ S0) B0 C0). }
        rewrite (same_value rc_iter _ _ _ _ _ _ CN LV LT P1 P2 CE IM) in Q1. congruence.
      - intros SM FE X. apply map_some_inj in X. rewrite V in Q1, Q2.
        assert (CE : rc_iter (snd (u_explicit u1, rc1)) <> rc_iter (snd (u_explicit u2, rc2))).
        { cbn [snd]. assert (delta lens SIter e1 mid e2 <> 0%N) by (intros Z; apply SM, DS, Z). lia. }
        refine (new_value rc_iter _ _ _ _ _ _ _ _ CN LV LT P1 P2 CE _ Q1 Q2 X). apply calls_nodup. exact (group_nodup _ _ _ _ A3 H T (FE _ F)).
    Qed.
  End Iters.
End Client.
