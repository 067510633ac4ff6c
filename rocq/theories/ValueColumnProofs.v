(** Proofs about the values of a client's statements: saved columns. *)
From Verif Require Import Prelude ListAux ScopeModel ScopeSpec StmtModel WorkloadModel WorkloadSpec ClientModel ClientSpec
  ClientProofs ClientConnProofs ClientTrxProofs ValueModel ValueSpec ValueProofs.
#[local] Open Scope list_scope.

Section P.
  Context {G V : Type}.
  Variable gvalues : G -> runcount -> G * list V.
  Variable own : nat -> bool.
  Variable gscope : nat -> scope.
  Variable gen0 : nat -> G.
  Variable c : client.
  Variable held : G -> list V.
  Variable p : nat.
  Notation cst := (cst V).
  Notation event := (event V).
  Notation world := (world (G := G) (V := V)).
  Notation log := (list (vlog G V)).
  Notation vrun := (vrun gvalues own gscope gen0 c).
  Notation sg_uses := (sg_uses G V gvalues).
  Notation column := (is_column gvalues held).

  Fixpoint good (l : log) (g : G) : Prop :=
    match l with
    | [] => True
    | LUses _ _ us :: l' => (forall u, In u us -> u_ptr u = p -> u_vals u = held g) /\ good l' g
    | LSave _ q g' :: l' => good l' (if Nat.eqb q p then g' else g)
    end.
  Lemma last_saved_app (a : log) : forall b g, last_saved p (a ++ b) g = last_saved p b (last_saved p a g).
  Proof. induction a as [|[i rc us|i q g'] a IH]; intros b g; cbn; auto. Qed.
  Lemma good_app (a : log) : forall b g, good a g -> good b (last_saved p a g) -> good (a ++ b) g.
  Proof. induction a as [|[i rc us|i q g'] a IH]; intros b g A B; cbn in *; auto. destruct A. auto. Qed.
  Lemma good_split (a : log) : forall g i rc us b, good (a ++ LUses i rc us :: b) g -> forall u, In u us -> u_ptr u = p -> u_vals u = held (last_saved p a g).
  Proof. induction a as [|[i0 rc0 us0|i0 q g'] a IH]; intros g i rc us b H; cbn in *; [apply H|destruct H as [_ H]; eauto|eauto]. Qed.
  Lemma last_saved_col (l : log) : forall g, column g -> (forall i g', In (LSave i p g') l -> column g') -> column (last_saved p l g).
  Proof.
    induction l as [|[i rc us|i q g'] l IH]; intros g A B; cbn; auto.
    - apply IH; auto. intros j g' I. apply (B j). now right.
    - apply IH; [|intros j g0 I; apply (B j); now right]. destruct (Nat.eqb_spec q p) as [->|]; [apply (B i); now left|auto].
  Qed.

  (** Uses of a column in one statement. *)
  Lemma col_uses rc : forall exs (s s' : sg G V) vs, sg_cls _ _ s = CSingle 1 -> column (sg_g _ _ s) -> (sg_last _ _ s <= rc_trx rc)%N ->
    (sg_last _ _ s = rc_trx rc -> sg_vals _ _ s = Some (held (sg_g _ _ s))) ->
    sg_uses s (map to_use (map (fun ex => (ex, rc)) exs)) = (s', vs) ->
    Forall (fun v => v = held (sg_g _ _ s)) vs /\ sg_cls _ _ s' = CSingle 1 /\ sg_g _ _ s' = sg_g _ _ s /\
    match exs with [] => s' = s | _ => sg_last _ _ s' = rc_trx rc /\ sg_vals _ _ s' = Some (held (sg_g _ _ s)) end.
  Proof.
    induction exs as [|ex exs IH]; intros s s' vs C CO L VA H; cbn [map ScopeModel.sg_uses] in H.
    - injection H as <- <-. repeat split; auto.
    - destruct (sg_use _ _ gvalues s (to_use (ex, rc))) as [s1 v] eqn:E.
      destruct (sg_uses s1 (map to_use (map (fun ex => (ex, rc)) exs))) as [s2 vs2] eqn:E2. injection H as <- <-.
      assert (CALL : forall s1 v, sg_call _ _ gvalues s rc = (s1, v) -> v = held (sg_g _ _ s) /\ sg_cls _ _ s1 = CSingle 1 /\ sg_g _ _ s1 = sg_g _ _ s /\
        sg_last _ _ s1 = rc_trx rc /\ sg_vals _ _ s1 = Some (held (sg_g _ _ s))).
      { intros s3 v3 X. unfold sg_call in X. rewrite (CO rc), C in X. injection X as <- <-. cbn. unfold sg_sno. rewrite C. auto. }
      assert (Q : v = held (sg_g _ _ s) /\ sg_cls _ _ s1 = CSingle 1 /\ sg_g _ _ s1 = sg_g _ _ s /\
        sg_last _ _ s1 = rc_trx rc /\ sg_vals _ _ s1 = Some (held (sg_g _ _ s))).
      { unfold to_use in E. cbn [fst snd] in E. destruct ex; cbn [sg_use] in E; [auto|]. unfold sg_values in E. rewrite C in E. cbn [rc_get] in E.
        destruct (N.ltb_spec (sg_last _ _ s) (rc_trx rc)); [auto|]. injection E as <- <-.
        assert (EQ : sg_last _ _ s = rc_trx rc) by lia. rewrite (VA EQ). cbn. auto. }
      destruct Q as (-> & C1 & G1 & L1 & V1).
      assert (P1 : column (sg_g _ _ s1)) by (rewrite G1; exact CO).
      assert (P2 : (sg_last _ _ s1 <= rc_trx rc)%N) by lia.
      assert (P3 : sg_last _ _ s1 = rc_trx rc -> sg_vals _ _ s1 = Some (held (sg_g _ _ s1))) by (intros _; now rewrite G1).
      destruct (IH s1 s2 vs2 C1 P1 P2 P3 E2) as (A & B & D & F). rewrite G1 in *. split; [now constructor|]. split; [exact B|]. split; [exact D|].
      destruct exs; [subst s2; auto|exact F].
  Qed.

  Lemma save_col i sv : forall ps (w w' : world) l, save_all i w ps sv = (w', l) ->
    sg_cls _ _ (w' p) = sg_cls _ _ (w p) /\ sg_last _ _ (w' p) = sg_last _ _ (w p) /\ sg_vals _ _ (w' p) = sg_vals _ _ (w p) /\
    sg_g _ _ (w' p) = last_saved p l (sg_g _ _ (w p)) /\ (forall g, good l g).
  Proof.
    induction ps as [|q ps IH]; intros w w' l H; cbn [save_all] in H.
    - injection H as <- <-. cbn. auto.
    - destruct (sv q) as [g|] eqn:E; [|eauto].
      destruct (save_all i (natupd w q (sg_set (w q) g)) ps sv) as [w2 l2] eqn:E2. injection H as <- <-.
      destruct (IH _ _ _ E2) as (A1 & A2 & A3 & A4 & A5). cbn [last_saved good].
      destruct (Nat.eqb_spec q p) as [->|N].
      + rewrite natupd_same in *. cbn in *. auto.
      + rewrite natupd_other in * by auto. auto.
  Qed.

  Lemma exec_trx (st : cst) i se (st' : cst) evs nx : exec_case c st i se st' evs nx -> nx = NStmt \/ nx = NIter ->
    forall s d, nth_error (c_stmts c) i = Some s -> is_idle s = false -> nth_error (c_data c) i = Some d -> rc_trx (s_rc st') = rc_trx (pre_rc st d).
  Proof.
    intros X NX s0 d0 E1 E2 E3.
    inversion X; subst; destruct NX as [NX|NX]; try discriminate NX; try congruence.
    - assert (d0 = d) as -> by congruence. reflexivity.
    - destruct r; discriminate NX.
    - assert (d0 = d) as -> by congruence. destruct r; try discriminate NX. reflexivity.
  Qed.

  Section Trx.
    Variable lens : list nat.
    Hypothesis TRX : has_trx c lens.
    Hypothesis START : trx_start_with_query c lens.
    Hypothesis NE : c_stmts c <> [].
    Hypothesis OWN : own p = true.
    Hypothesis SCOPE : gscope p = STrx.
    Hypothesis COL0 : column (gen0 p).
    Hypothesis ORDER : forall i j ex, inputs_at c i p ex -> saves_at c j p -> (j < i)%nat.

    Definition colinv (st : cst) (pc : cpc) (w : world) (l : log) : Prop :=
      sg_cls _ _ (w p) = CSingle 1 /\ sg_g _ _ (w p) = last_saved p l (gen0 p) /\ good l (gen0 p) /\
      (pc <> PcDone -> (sg_last _ _ (w p) <= rc_trx (s_rc st))%N /\
        forall i, pc = PcStmt i -> first_of_trx lens i = false -> sg_last _ _ (w p) = rc_trx (s_rc st) ->
          sg_vals _ _ (w p) = Some (held (sg_g _ _ (w p))) /\ exists u ex, (u < i)%nat /\ inputs_at c u p ex).

    Lemma in_of_ptr us u : In u us -> u_ptr u = p -> In u (of_ptr (V := V) p us).
    Proof. intros I P. apply filter_In. split; [exact I|]. now apply Nat.eqb_eq. Qed.

    Lemma column_run inps st pc w evs l : vrun inps = Some (st, pc, w, evs, l) -> (forall i g, In (LSave i p g) l -> column g) -> colinv st pc w l.
    Proof.
      intros H.
      refine (proj1 (vrun_ind gvalues own gscope gen0 c (fun st pc w evs l => (forall i g, In (LSave i p g) l -> column g) -> colinv st pc w l) _ _ inps st pc w evs l H)).
      - intros _. unfold colinv, world_init, sg_new. cbn. rewrite SCOPE. split; [reflexivity|]. split; [reflexivity|]. split; [exact I|]. intros _. split; [lia|discriminate].
      - clear st pc w evs l inps H. intros st pc w evs l st' pc' w' evs' l' (inps & R) IH X SV.
        assert (SV0 : forall i g, In (LSave i p g) l -> column g) by (intros i g I; apply (SV i), in_app_iff; now left).
        specialize (IH SV0). destruct IH as (C & GG & GD & INV).
        destruct (vcase_step _ _ _ _ _ _ _ _ _ _ _ X) as (inp & ST).
        assert (ND : pc <> PcDone) by (intros ->; destruct inp; discriminate). specialize (INV ND). destruct INV as [LE INV].
        assert (CT : countable rc_trx) by (unfold countable; auto).
        pose proof (step_rc gvalues own gscope gen0 c _ _ _ _ _ _ rc_trx CT ST) as M.
        pose proof (last_saved_col l (gen0 p) COL0 SV0) as CO. rewrite <- GG in CO.
        inversion X as [inp' st1 pc1 evs1 CS PL|i se s d o w1 us sv w2 l2 st1 pc1 evs1 EPC ES ED EI EU EV CS ESV]; subst.
        + rewrite app_nil_r. split; [exact C|]. split; [exact GG|]. split; [exact GD|]. intros ND'. split; [lia|]. intros i -> FI EQ.
          apply step_inv in CS.
          assert (GEN : forall pcx, step_case c st pc inp' st' pcx evs' -> pcx = PcStmt i ->
            sg_vals _ _ (w' p) = Some (held (sg_g _ _ (w' p))) /\ exists u ex, (u < i)%nat /\ inputs_at c u p ex); [|eapply GEN; eauto].
          clear CS ST. intros pcx Y. inversion Y as [| | |i0 se0 st1 evs0 nx EC EX]; intros PX; subst pc inp'.
          * destruct r; discriminate.
          * discriminate.
          * unfold stmt_pc in PX. destruct (0 <? length (c_stmts c))%nat; [|discriminate]. injection PX as <-. discriminate FI.
          * destruct nx; try discriminate. unfold stmt_pc in PX. destruct (Nat.ltb_spec (S i0) (length (c_stmts c))); [|discriminate]. injection PX as <-.
            assert (IDLE : exists s, nth_error (c_stmts c) i0 = Some s /\ is_idle s = true /\ st' = st).
            { inversion EC; subst; [exists s; auto|exfalso|exfalso; destruct r; discriminate].
              match goal with H1 : is_idle s = false, H2 : nth_error (c_stmts c) i0 = Some s |- _ => pose proof (PL _ _ _ eq_refl eq_refl H2 H1) end. congruence. }
            destruct IDLE as (s & S1 & S2 & ->).
            assert (F0 : first_of_trx lens i0 = false) by (destruct (first_of_trx lens i0) eqn:F; [rewrite (START _ _ S1 F) in S2; discriminate|reflexivity]).
            destruct (INV _ eq_refl F0 EQ) as (A & u & ex & B & D). split; [exact A|]. exists u, ex. split; [lia|exact D].
        + destruct (use_inputs_ok _ _ _ _ _ _ _ _ EU) as [UI UW]. specialize (UW p OWN).
          destruct (data_marks c lens TRX _ _ ED) as [DB _].
          pose proof (pre_rc_pos gvalues own gscope gen0 c lens TRX START _ _ _ _ _ rc_trx CT R ED) as P1.
          assert (PRC : rc_trx (pre_rc st d) = if first_of_trx lens i then (rc_trx (s_rc st) + 1)%N else rc_trx (s_rc st)) by (unfold pre_rc; cbn; now rewrite DB).
          assert (LE' : (sg_last _ _ (w p) <= rc_trx (pre_rc st d))%N) by (rewrite PRC; destruct (first_of_trx lens i); lia).
          assert (EQV : sg_last _ _ (w p) = rc_trx (pre_rc st d) -> first_of_trx lens i = false /\ sg_vals _ _ (w p) = Some (held (sg_g _ _ (w p))) /\ exists u ex, (u < i)%nat /\ inputs_at c u p ex).
          { intros EQ. destruct (first_of_trx lens i) eqn:F; [rewrite PRC in EQ; lia|]. split; [reflexivity|]. apply (INV i); auto. congruence. }
          rewrite <- (map_map u_explicit (fun ex => (ex, pre_rc st d))) in UW.
          destruct (col_uses _ _ _ _ _ C CO LE' (fun E => proj1 (proj2 (EQV E))) UW) as (VS & C1 & G1 & T).
          destruct (save_col _ _ _ _ _ _ ESV) as (S1 & S2 & S3 & S4 & S5).
          split; [congruence|]. split; [rewrite last_saved_app; cbn [last_saved]; now rewrite S4, G1, GG|].
          split.
          { apply good_app; [exact GD|]. cbn [good]. split; [|apply S5]. intros u I PU. rewrite <- GG. rewrite Forall_forall in VS. apply VS. apply in_map, in_of_ptr; auto. }
          intros ND'. apply step_inv in CS. inversion CS as [| | |i0 se0 st1 evs0 nx EC EX]; subst.
          assert (NX : nx = NStmt \/ nx = NIter) by (destruct nx; auto; congruence).
          assert (RC' : rc_trx (s_rc st') = rc_trx (pre_rc st d)) by (exact (exec_trx _ _ _ _ _ _ EC NX _ _ ES EI ED)).
          rewrite RC', S2.
          assert (HERE : of_ptr p us = [] \/ exists ex, inputs_at c i p ex).
          { destruct (of_ptr p us) as [|u r] eqn:EO; [now left|right]. assert (I : In u (of_ptr p us)) by (rewrite EO; now left).
            apply filter_In in I as [I1 I2]. apply Nat.eqb_eq in I2. exists (u_explicit u), d. split; [exact ED|]. rewrite <- UI, <- I2. exact (in_map (fun u => (u_ptr u, u_explicit u)) us u I1). }
          assert (TC : (w1 p = w p /\ of_ptr p us = []) \/ (sg_last _ _ (w1 p) = rc_trx (pre_rc st d) /\ sg_vals _ _ (w1 p) = Some (held (sg_g _ _ (w p))) /\ exists ex, inputs_at c i p ex)).
          { destruct (of_ptr p us) as [|u r] eqn:EO; cbn [map] in T; [left; auto|right]. destruct T. destruct HERE as [|HERE]; [discriminate|auto]. }
          split; [destruct TC as [[-> _]|[-> _]]; lia|].
          intros k EK FK EQ.
          assert (KS : k = S i). { destruct nx; try discriminate EK. unfold stmt_pc in EK. destruct (S i <? length (c_stmts c))%nat; congruence. }
          subst k.
          assert (NOSAVE : saves_at c i p -> False).
          { intros SA. destruct TC as [[E1 _]|(_ & _ & ex & IA)].
            - rewrite E1 in EQ. destruct (EQV EQ) as (_ & _ & u & ex & LT & IA). pose proof (ORDER _ _ _ IA SA). lia.
            - pose proof (ORDER _ _ _ IA SA). lia. }
          assert (W2 : w' p = w1 p).
          { destruct (save_all_ok _ _ _ _ _ _ ESV) as (_ & S & _). apply S. intros I. apply NOSAVE. exists s, d. rewrite <- save_ptrs_ok. auto. }
          rewrite W2. destruct TC as [[E1 _]|(_ & E2 & ex & IA)].
          * rewrite E1 in EQ |- *. destruct (EQV EQ) as (_ & A & u & ex & LT & IA). split; [exact A|]. exists u, ex. split; [lia|exact IA].
          * rewrite G1. split; [exact E2|]. exists i, ex. split; [lia|exact IA].
    Qed.

    Lemma column_used inps st pc w evs a i rc us b u : vrun inps = Some (st, pc, w, evs, a ++ LUses i rc us :: b) ->
      (forall j g, In (LSave j p g) (a ++ LUses i rc us :: b) -> column g) -> In u us -> u_ptr u = p -> u_vals u = held (last_saved p a (gen0 p)).
    Proof. intros H SV I PU. destruct (column_run _ _ _ _ _ _ H SV) as (_ & _ & GD & _). eapply good_split; eauto. Qed.
  End Trx.
End P.
