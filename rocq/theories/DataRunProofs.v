(** What the generators of a client return, in every run. *)
From Verif Require Import Prelude ListAux ScopeModel ScopeSpec StmtModel WorkloadModel WorkloadSpec ClientModel ClientSpec ClientProofs
  ValueModel ValueSpec ValueProofs.
#[local] Open Scope list_scope.

(** ** One scoped generator *)
Section Scoped.
  Context {G V : Type} (gvalues : G -> runcount -> G * list V) (Inv : G -> Prop) (Ok : list V -> Prop) (R : runcount -> Prop).
  Hypothesis STEP : forall g rc, Inv g -> R rc -> Inv (fst (gvalues g rc)) /\ Ok (snd (gvalues g rc)).

  Definition sg_fine (n : nat) (s : sg G V) : Prop :=
    sg_cls _ _ s = CSingle n /\ Inv (sg_g _ _ s) /\ match sg_vals _ _ s with None => sg_last _ _ s = 0%N | Some v => Ok v end.

  Lemma use_fine n s ex rc : sg_fine n s -> R rc -> (1 <= rc_get rc n)%N ->
    sg_fine n (fst (sg_use _ _ gvalues s (Use ex rc))) /\ Ok (snd (sg_use _ _ gvalues s (Use ex rc))).
  Proof.
    intros (C & I & L) HR P.
    assert (CALL : sg_fine n (fst (sg_call _ _ gvalues s rc)) /\ Ok (snd (sg_call _ _ gvalues s rc))).
    { unfold sg_call. destruct (STEP _ rc I HR) as [A B]. destruct (gvalues (sg_g _ _ s) rc) as [g' v]. cbn [fst snd] in A, B. rewrite C. cbn [fst snd].
      split; [|exact B]. split; [reflexivity|]. split; [exact A|]. exact B. }
    destruct ex; cbn [sg_use]; [exact CALL|]. unfold sg_values. rewrite C.
    destruct (N.ltb_spec (sg_last _ _ s) (rc_get rc n)); [exact CALL|]. cbn [fst snd]. split; [exact (conj C (conj I L))|].
    destruct (sg_vals _ _ s) as [v|]; [exact L|]. exfalso. rewrite L in *. lia.
  Qed.

  Lemma uses_fine n us : forall s, sg_fine n s -> (forall ex rc, In (Use ex rc) us -> R rc /\ (1 <= rc_get rc n)%N) ->
    sg_fine n (fst (sg_uses _ _ gvalues s us)) /\ Forall Ok (snd (sg_uses _ _ gvalues s us)).
  Proof.
    induction us as [|[ex rc] us IH]; intros s F H; cbn [sg_uses]; [split; [exact F|constructor]|].
    destruct (H ex rc (or_introl eq_refl)) as [H1 H2]. destruct (use_fine n s ex rc F H1 H2) as [A B].
    destruct (sg_use _ _ gvalues s (Use ex rc)) as [s1 v]. cbn [fst snd] in A, B.
    destruct (IH s1 A) as [A' B']; [intros; apply (H ex0); now right|]. destruct (sg_uses _ _ gvalues s1 us) as [s2 vs]. cbn [fst snd] in *.
    split; [exact A'|]. now constructor.
  Qed.
End Scoped.

(** ** The generators of a client *)
Section Run.
  Context {G V : Type} (gvalues : G -> runcount -> G * list V) (own : nat -> bool) (gscope : nat -> scope) (gen0 : nat -> G) (c : client).
  Context (lens : list nat).
  Hypothesis TRX : has_trx c lens.
  Hypothesis START : trx_start_with_query c lens.
  Hypothesis NE : c_stmts c <> [].

  (** The counters that name the client. *)
  Definition own_rc (rc : runcount) : Prop :=
    rc_client rc = rl_client (c_rl c) /\ rc_cg rc = rl_cg (c_rl c) /\ rc_eg rc = rl_eg (c_rl c) /\ rc_stage rc = rl_stage (c_rl c).

  Lemma exec_names (st : cst V) i se st' evs nx : exec_case c st i se st' evs nx -> own_rc (s_rc st) -> own_rc (s_rc st').
  Proof.
    intros X O.
    assert (PRE : forall d, own_rc (pre_rc st d)) by (intros d; exact O).
    inv X; cbn [pre_state s_rc]; auto.
    match goal with H1 : connect _ _ _ _ = _ |- _ => apply connect_rc in H1; cbn [pre_state s_rc] in H1; rename H1 into RC1 end.
    destruct r; cbn [with_rc s_rc]; [|rewrite RC1; apply PRE|rewrite RC1; apply PRE]. exact (PRE d).
  Qed.
  Lemma step_names (st : cst V) pc inp st' pc' evs : cstep c st pc inp = Some (st', pc', evs) -> own_rc (s_rc st) -> own_rc (s_rc st').
  Proof.
    intros H O. apply step_inv in H. inv H; auto.
    - match goal with H1 : connect _ _ _ _ = _ |- _ => apply connect_rc in H1; rewrite H1 end. exact O.
    - match goal with H1 : exec_case _ _ _ _ _ _ _ |- _ => exact (exec_names _ _ _ _ _ _ H1 O) end.
  Qed.
  Lemma run_names inps (st : cst V) pc evs : client_run c inps = Some (st, pc, evs) -> own_rc (s_rc st).
  Proof.
    revert inps st pc evs. apply (client_run_ind c (fun st pc _ => own_rc (s_rc st))).
    - repeat split.
    - intros st pc evs inp st' pc' evs' O H. eapply step_names; eauto.
  Qed.

  Section One.
    Context (p : nat) (Inv : G -> Prop) (Ok : list V -> Prop).
    Hypothesis STEP : forall g rc, Inv g -> own_rc rc -> Inv (fst (gvalues g rc)) /\ Ok (snd (gvalues g rc)).
    Hypothesis INIT : Inv (gen0 p).
    Hypothesis OWN : own p = true.
    Hypothesis SC : single_client (gscope p).

    Lemma save_fine n i sv : forall ps (w w' : world (G := G) (V := V)) l, save_all i w ps sv = (w', l) ->
      (forall g, In (LSave i p g) l -> Inv g) -> sg_fine Inv Ok n (w p) -> sg_fine Inv Ok n (w' p).
    Proof using.
      induction ps as [|q ps IH]; intros w w' l H S F; cbn [save_all] in H; [injection H as <- <-; exact F|].
      destruct (sv q) as [g|] eqn:E; [|exact (IH _ _ _ H S F)].
      destruct (save_all i (natupd w q (sg_set (w q) g)) ps sv) as [w2 l2] eqn:E2. injection H as <- <-.
      apply (IH _ _ _ E2); [intros g' X; apply S; now right|]. destruct (Nat.eqb_spec q p) as [->|N].
      - rewrite natupd_same. destruct F as (A & _ & B). split; [exact A|]. split; [|exact B]. apply S. now left.
      - rewrite natupd_other by auto. exact F.
    Qed.

    Lemma run_fine inps st pc w evs l : vrun gvalues own gscope gen0 c inps = Some (st, pc, w, evs, l) ->
      (forall i g, In (LSave i p g) l -> Inv g) ->
      forall i rc us u, In (i, rc, us) (groups l) -> In u us -> u_ptr u = p -> Ok (u_vals u).
    Proof using TRX START NE STEP INIT OWN SC.
      intros H S.
      assert (CLS : exists n f, sg_class (gscope p) = CSingle n /\ countable f /\ forall rc, rc_get rc n = f rc).
      { unfold countable. destruct SC as [->|[->|[->| ->]]]; cbn; eexists _, _; (split; [reflexivity|]).
        - split; [now left|reflexivity].
        - split; [right; now left|reflexivity].
        - split; [right; right; now left|reflexivity].
        - split; [right; right; now right|reflexivity]. }
      destruct CLS as (n & f & C1 & C2 & C3).
      cut ((forall i g, In (LSave i p g) l -> Inv g) -> sg_fine Inv Ok n (w p) /\
           forall i rc us u, In (i, rc, us) (groups l) -> In u us -> u_ptr u = p -> Ok (u_vals u)); [intros X; exact (proj2 (X S))|]. clear S.
      refine (proj1 (vrun_ind gvalues own gscope gen0 c (fun st pc w evs l => (forall i g, In (LSave i p g) l -> Inv g) -> sg_fine Inv Ok n (w p) /\
           forall i rc us u, In (i, rc, us) (groups l) -> In u us -> u_ptr u = p -> Ok (u_vals u)) _ _ inps st pc w evs l H)).
      - intros _. split; [|intros ? ? ? ? []]. unfold world_init, sg_new. split; [exact C1|]. split; [exact INIT|reflexivity].
      - intros st0 pc0 w0 e0 l0 st1 pc1 w1 e1 l1 (inps0 & R0) IH X SV. destruct IH as [F U]; [intros i g I; apply (SV i g); apply in_or_app; now left|].
        inv X; [rewrite app_nil_r in *; auto|].
        match goal with H1 : use_inputs _ _ _ _ _ _ = _ |- _ => destruct (use_inputs_ok _ _ _ _ _ _ _ _ H1) as [_ B] end.
        specialize (B p OWN). set (us0 := us) in *.
        assert (HR : forall rcx, rcx = pre_rc st0 d -> own_rc rcx /\ (1 <= rc_get rcx n)%N).
        { intros rcx ->. split; [exact (run_names _ _ _ _ R0)|]. rewrite C3. eapply pre_rc_pos; eauto. }
        destruct (uses_fine gvalues Inv Ok own_rc STEP n (map to_use (map (fun u => (u_explicit u, pre_rc st0 d)) (of_ptr p us0))) (w0 p) F) as [A1 A2].
        { intros ex rc I. apply in_map_iff in I as (y & Y1 & Y2). apply in_map_iff in Y2 as (u & <- & _). unfold to_use in Y1. cbn [fst snd] in Y1. injection Y1 as _ Y1. auto. }
        rewrite B in A1, A2. cbn [fst snd] in A1, A2. split.
        + eapply save_fine; [eassumption| |exact A1]. intros g I. apply (SV i g). apply in_or_app. right. now right.
        + intros i' rc' us' u I1 I2 I3. rewrite groups_app in I1. apply in_app_or in I1 as [I1|I1]; [eauto|].
          match goal with H1 : save_all _ _ _ _ = _ |- _ => destruct (save_all_ok _ _ _ _ _ _ H1) as (E & _) end.
          match type of I1 with In _ (groups (LUses ?a ?b ?u :: ?x)) => change (groups (LUses a b u :: x)) with ((a, b, u) :: groups x) in I1 end.
          rewrite E in I1. destruct I1 as [[= <- <- <-]|[]]. rewrite Forall_forall in A2. apply A2. apply in_map. apply filter_In. split; [exact I2|]. now apply Nat.eqb_eq.
    Qed.
  End One.
End Run.
