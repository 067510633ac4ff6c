(** What the generators of several clients return. *)
From Verif Require Import Prelude ListAux ScopeModel ScopeSpec StmtModel WorkloadModel WorkloadSpec ClientModel ClientSpec ClientProofs
  ValueModel ValueSpec ValueProofs ValueCallProofs EndSpec EndProofs EndValueProofs DataModel DataSpec DataProofs DataRunProofs DataSizeProofs SharedSpec.
From Verif Require ConfigModel TrxModel PipeModel PipeProofs PipeKeyProofs PipeRunProofs DataKeyProofs.
#[local] Open Scope string_scope.
#[local] Open Scope list_scope.

(** ** Histories of one generator *)
Section Multi.
  Context {G V : Type} (gvalues : G -> runcount -> G * list V) (Inv : G -> Prop) (Ok : runcount -> list V -> Prop).
  Hypothesis STEP : forall g rc, Inv g -> Inv (fst (gvalues g rc)) /\ Ok rc (snd (gvalues g rc)).

  (** A value that was generated for a use with this client number. *)
  Definition from (tr : list (mevent V)) (n : N) (v : list V) : Prop :=
    exists t ex rc, In (ScopeModel.EvUse t ex rc) tr /\ rc_client rc = n /\ Ok rc v.

  Definition m_fine (s : mst G V) (tr : list (mevent V)) : Prop :=
    Inv (m_g _ _ s) /\
    (forall t rc, m_ph _ _ s t = MWant _ rc -> exists ex, In (ScopeModel.EvUse t ex rc) tr) /\
    (forall t rc v, m_ph _ _ s t = MHave _ rc v -> (exists ex, In (ScopeModel.EvUse t ex rc) tr) /\ Ok rc v) /\
    (forall n i, m_iter _ _ s n = Some i -> from tr n (m_vals _ _ s n)) /\
    (forall t v, In (EvRet t v) tr -> exists ex rc, In (ScopeModel.EvUse t ex rc) tr /\ from tr (rc_client rc) v).

  Lemma from_app tr tr' n v : from tr n v -> from (tr ++ tr') n v.
  Proof. intros (t & ex & rc & A & B & C). exists t, ex, rc. split; [apply in_or_app; now left|]. auto. Qed.

  Lemma m_step_fine s tr l s' evs : m_fine s tr -> m_step _ _ gvalues s l = Some (s', evs) -> m_fine s' (tr ++ evs).
  Proof.
    intros (F1 & F2 & F3 & F4 & F5) H.
    assert (L : forall t ex rc, In (ScopeModel.EvUse t ex rc) tr -> In (ScopeModel.EvUse t ex rc) (tr ++ evs)) by (intros; apply in_or_app; now left).
    assert (F5' : (forall t v, In (EvRet t v) evs -> exists ex rc, In (ScopeModel.EvUse t ex rc) (tr ++ evs) /\ from (tr ++ evs) (rc_client rc) v) ->
       forall t v, In (EvRet t v) (tr ++ evs) -> exists ex rc, In (ScopeModel.EvUse t ex rc) (tr ++ evs) /\ from (tr ++ evs) (rc_client rc) v).
    { intros X t v I. apply in_app_or in I as [I|I]; [|auto]. destruct (F5 t v I) as (ex & rc & A & B). exists ex, rc. split; [auto|]. now apply from_app. }
    destruct l as [t ex cnt|t]; cbn [m_step] in H.
    - destruct (m_ph _ _ s t) as [| |] eqn:P; try discriminate.
      assert (WANT : s' = MSt (m_g _ _ s) (m_iter _ _ s) (m_vals _ _ s) (natupd (m_ph _ _ s) t (MWant _ cnt)) -> evs = [ScopeModel.EvUse t ex cnt] -> m_fine s' (tr ++ evs)).
      { intros -> ->. split; [exact F1|]. split; [|split; [|split]]; cbn [m_ph m_iter m_vals].
        - intros t' rc E. destruct (Nat.eq_dec t t') as [<-|N].
          + rewrite natupd_same in E. injection E as <-. exists ex. apply in_or_app. right. now left.
          + rewrite natupd_other in E by auto. destruct (F2 _ _ E) as [x X]. exists x. auto.
        - intros t' rc v E. destruct (Nat.eq_dec t t') as [<-|N]; [rewrite natupd_same in E; discriminate|].
          rewrite natupd_other in E by auto. destruct (F3 _ _ _ E) as [[x X] Y]. split; [exists x|]; auto.
        - intros n i E. apply from_app. eauto.
        - apply F5'. intros t' v [I|[]]. discriminate. }
      destruct ex; [injection H as <- <-; auto|]. destruct (m_iter _ _ s (rc_client cnt)) as [pi|] eqn:IT; [|injection H as <- <-; auto].
      destruct (pi <? rc_iter cnt)%N; injection H as <- <-; [auto|].
      split; [exact F1|]. split; [intros t' rc E; destruct (F2 _ _ E) as [x X]; exists x; auto|].
      split; [intros t' rc v E; destruct (F3 _ _ _ E) as [[x X] Y]; split; [exists x|]; auto|].
      split; [intros n i E; apply from_app; eauto|]. apply F5'. intros t' v [I|[I|[]]]; [discriminate|]. injection I as <- <-.
      exists false, cnt. split; [apply in_or_app; right; now left|]. apply from_app. eauto.
    - destruct (m_ph _ _ s t) as [|cnt|cnt v] eqn:P; try discriminate.
      + destruct (gvalues (m_g _ _ s) cnt) as [g1 v] eqn:HG. injection H as <- <-. destruct (STEP (m_g _ _ s) cnt F1) as [A B]. rewrite HG in A, B. cbn [fst snd] in A, B.
        split; [exact A|]. split; [|split; [|split]]; cbn [m_ph m_iter m_vals].
        * intros t' rc E. destruct (Nat.eq_dec t t') as [<-|N]; [rewrite natupd_same in E; discriminate|].
          rewrite natupd_other in E by auto. destruct (F2 _ _ E) as [x X]. exists x. auto.
        * intros t' rc v' E. destruct (Nat.eq_dec t t') as [<-|N].
          -- rewrite natupd_same in E. injection E as <- <-. destruct (F2 _ _ P) as [x X]. split; [exists x|]; auto.
          -- rewrite natupd_other in E by auto. destruct (F3 _ _ _ E) as [[x X] Y]. split; [exists x|]; auto.
        * intros n i E. apply from_app. eauto.
        * apply F5'. intros t' v' [I|[]]. discriminate.
      + injection H as <- <-. destruct (F3 _ _ _ P) as [[x X] Y].
        assert (FR : from tr (rc_client cnt) v) by (exists t, x, cnt; auto).
        split; [exact F1|]. split; [|split; [|split]]; cbn [m_ph m_iter m_vals].
        * intros t' rc E. destruct (Nat.eq_dec t t') as [<-|N]; [rewrite natupd_same in E; discriminate|].
          rewrite natupd_other in E by auto. destruct (F2 _ _ E) as [x' X']. exists x'. auto.
        * intros t' rc v' E. destruct (Nat.eq_dec t t') as [<-|N]; [rewrite natupd_same in E; discriminate|].
          rewrite natupd_other in E by auto. destruct (F3 _ _ _ E) as [[x' X'] Y']. split; [exists x'|]; auto.
        * intros n i E. apply from_app. destruct (N.eq_dec (rc_client cnt) n) as [<-|N].
          -- now rewrite nupd_same.
          -- rewrite nupd_other in E by auto. rewrite nupd_other by auto. eauto.
        * apply F5'. intros t' v' [I|[]]. injection I as <- <-. exists x, cnt. split; [auto|]. now apply from_app.
  Qed.

  Lemma m_run_fine ls : forall s tr s' evs, m_fine s tr -> m_run _ _ gvalues s ls = Some (s', evs) -> m_fine s' (tr ++ evs).
  Proof.
    induction ls as [|l ls IH]; intros s tr s' evs F H; cbn in H; [injection H as <- <-; now rewrite app_nil_r|].
    destruct (m_step _ _ gvalues s l) as [[s1 e1]|] eqn:E; [|discriminate].
    destruct (m_run _ _ gvalues s1 ls) as [[s2 e2]|] eqn:E2; [|discriminate]. injection H as <- <-.
    rewrite app_assoc. eapply IH; [|exact E2]. eapply m_step_fine; eauto.
  Qed.

  Lemma history_fine g0 ls s tr : Inv g0 -> m_run _ _ gvalues (m_init g0) ls = Some (s, tr) ->
    forall t v, In v (rets_by t tr) -> exists ex rc, In (ex, rc) (uses_by t tr) /\ from tr (rc_client rc) v.
  Proof.
    intros I H. assert (F : m_fine (m_init g0) []).
    { split; [exact I|]. split; [discriminate|]. split; [discriminate|]. split; [discriminate|]. intros ? ? []. }
    destruct (m_run_fine ls _ [] _ _ F H) as (_ & _ & _ & _ & X). cbn [app] in X. intros t v J. unfold rets_by in J. apply in_flat_map in J as (e & E1 & E2).
    destruct e as [| |t' v']; [destruct E2|destruct E2|]. destruct (Nat.eqb_spec t' t) as [->|N]; [|destruct E2]. destruct E2 as [->|[]].
    destruct (X _ _ E1) as (ex & rc & A & B). exists ex, rc. split; [|exact B]. unfold uses_by. apply in_flat_map. eexists. split; [exact A|]. cbn. rewrite Nat.eqb_refl. now left.
  Qed.
End Multi.

(** ** The documented values of several clients *)
Lemma allowed_mine me rc name ps vs : allowed rc name ps vs -> (name = "client-id" -> same_client me rc) -> allowed me name ps vs.
Proof.
  intros A S. destruct A; try (econstructor; eauto; fail).
  match goal with H : same_client rc _ |- _ => destruct (S eq_refl) as (S1 & S2 & S3 & S4); destruct H as (T1 & T2 & T3 & T4) end.
  econstructor; eauto. repeat split; congruence.
Qed.

Lemma shared_made fl P cs l a key d : PipeModel.pe_make P = data_make fl -> PipeModel.load_stages P cs [] = Some l ->
  configured l a key d -> shared_key (map (fun x => PipeModel.stage_of P (fst x) (snd x)) l) a key ->
  exists g0, gen_make fl (ConfigModel.d_gen d) (ConfigModel.d_params d) = Some g0.
Proof.
  intros PM H (c0 & set & x & Ha & _ & _ & AG & NC) (sc & SC & SG).
  destruct (DataKeyProofs.stage_keys_of P cs [] WorkloadSpec.no_keys l a c0 set) as (keys0 & ND & LV & LS & KD); auto.
  { constructor. } { intros k. reflexivity. } { intros n k X. discriminate X. }
  unfold WorkloadSpec.scope_in in SC. rewrite KD in SC. destruct (ConfigModel.sget key (TrxModel.t_keys set)) as [k|] eqn:EK; [|discriminate].
  cbn [option_map PipeModel.key_of ScopeModel.k_scope] in SC. injection SC as SC.
  unfold PipeModel.load_stage in LS. destruct (PipeKeyProofs.load_trx_origin _ _ _ _ _ LS key k EK) as [X|[X|(y & d' & Hy & Hd' & (_ & M & _))]].
  - cbn [TrxModel.t_keys] in X. pose proof (PipeRunProofs.scope_of_left (TrxModel.k_scope k)) as Y.
    assert (Z : (String.eqb (TrxModel.k_scope k) "stage" || String.eqb (TrxModel.k_scope k) "global")%bool = true) by (destruct (LV _ _ X) as [-> | ->]; reflexivity).
    rewrite Z in Y. destruct (PipeModel.scope_of (TrxModel.k_scope k)) as [[]|]; try discriminate Y; subst sc; destruct SG as [G|[G|G]]; discriminate.
  - exfalso. apply X. exact (NC k eq_refl).
  - destruct (AG y d' Hy Hd') as [A B]. rewrite A, B in M. cbn [TrxModel.te_make PipeModel.tenv_of] in M. rewrite PM in M. unfold data_make in M.
    destruct (gen_make fl (ConfigModel.d_gen d) (ConfigModel.d_params d)) as [g0|]; [eauto|discriminate].
Qed.

(** ** The slots of a key *)
Section Slot.
  Context {G V : Type} (gvalues : G -> runcount -> G * list V) (gen0 : nat -> G).
  Context (sts : list stagecfg) (nx : nat) (w' : wst) (outs : list (list (list (list client)))).
  Hypothesis OK : run_ok sts.
  Hypothesis PR : prepare_all sts (WSt scopes_new nx) = Some (w', outs).
  Context (a e g k : nat) (n : N) (c : client) (lens : list nat).
  Hypothesis CL : client_of sts outs a e g k n c lens.
  Notation ks := (keys_at no_keys sts a).
  Hypothesis NG : no_global ks c.
  Context (inps : list (cinput V * (nat -> option G))) (st : cst V) (pc : cpc) (w : world (G := G) (V := V)) (evs : list (event V)) (l : list (vlog G V)).
  Hypothesis R : vrun gvalues (own_of w') (scope_of w') gen0 c inps = Some (st, pc, w, evs, l).
  Context (key : string) (sc : scope).
  Hypothesis NN : key <> NOOP_COLUMN.
  Hypothesis NP : key <> PREV.
  Hypothesis SC : scope_in ks key = Some sc.
  Hypothesis SG : sc <> SGlobal.

  Lemma shared_input i s d j : nth_error (c_stmts c) i = Some s -> nth_error (c_data c) i = Some d -> nth_error (st_inputs s) j = Some key ->
    exists p ex, nth_error (d_inputs d) (length (filter (serves ks) (firstn j (st_inputs s)))) = Some (p, ex) /\
      used_at sts outs a (place_of e g k n lens i j) key p.
  Proof using OK PR CL NN NP SC SG.
    intros S D J. destruct (client_fills sts nx w' outs OK PR a e g k n c lens CL i s d S D) as (F1 & F2 & _).
    assert (SV : serves ks key = true).
    { unfold serves. destruct (String.eqb_spec key PREV) as [E|_]; [congruence|]. rewrite SC. cbn. destruct sc; try apply orb_true_r. congruence. }
    destruct (slot_input _ _ _ _ _ _ F1 F2 J SV) as (p & ex & A & B & C). exists p, ex. split; [exact A|].
    eapply client_used; eauto. unfold uses_of. rewrite nth_error_app1; [exact B|]. apply nth_error_Some. congruence.
  Qed.

  Lemma shared_use pre ex post s j : sized c l -> execs evs = pre ++ ex :: post -> exec_uses c ex s j key ->
    exists rc us m u, nth_error (groups l) (length pre) = Some (ex_stmt ex, rc, us) /\ nth_error us m = Some u /\
      used_at sts outs a (place_of e g k n lens (ex_stmt ex) j) key (u_ptr u) /\ vals_at s j ex = map Some (u_vals u).
  Proof using OK PR CL NG R NN NP SC SG.
    intros SZ E [S J]. destruct (groups_match gvalues (own_of w') (scope_of w') gen0 c _ _ _ _ _ _ R) as (rest & F & EQ & _).
    assert (NE : nth_error (execs evs) (length pre) = Some ex) by (rewrite E, nth_error_app2, Nat.sub_diag by lia; reflexivity).
    destruct (nth_error (firstn (length (execs evs)) (groups l)) (length pre)) as [[[i rc] us]|] eqn:NG0.
    2: { exfalso. assert (L : length (execs evs) = length (firstn (length (execs evs)) (groups l))) by exact (forall2_len F). apply nth_error_None in NG0. assert (length pre < length (execs evs))%nat by (apply nth_error_Some; congruence). lia. }
    pose proof (Forall2_nth _ _ _ _ _ _ F NE NG0) as (M1 & M2 & s' & d & S' & D & M3 & M4).
    apply nth_of_firstn in NG0 as [NG1 _]. subst i. rewrite S in S'. injection S' as <-.
    destruct (shared_input _ _ _ _ S D J) as (p & exp & K1 & K2).
    set (m := length (filter (serves ks) (firstn j (st_inputs s)))) in *.
    rewrite <- M3, nth_error_map in K1. destruct (nth_error us m) as [u|] eqn:U; [|discriminate]. cbn in K1. injection K1 as <- <-.
    exists rc, us, m, u. split; [exact NG1|]. split; [exact U|]. split; [exact K2|].
    destruct (SZ _ _ _ _ (nth_error_In _ _ NG1) S) as [Z1 Z2]. unfold vals_at. rewrite (M4 Z1 Z2).
    destruct (placed_slot (st_inputs s) (map u_vals us) [] j key) as (v & V1 & V2); auto.
    { rewrite map_map. exact Z2. }
    rewrite V2. f_equal. rewrite nth_error_map in V1.
    assert (EM : length (filter plain (firstn j (st_inputs s))) = m).
    { unfold m. f_equal. apply filter_same. intros y Y. symmetry. apply (serves_plain sts a c NG s); [eapply nth_error_In; eauto|]. rewrite <- (firstn_skipn j). apply in_or_app. now left. }
    rewrite EM, U in V1. cbn in V1. congruence.
  Qed.

  (** The counters of the uses name the client. *)
  Lemma groups_own i rc us : In (i, rc, us) (groups l) -> own_rc c rc.
  Proof using R.
    revert i rc us.
    refine (proj1 (vrun_ind gvalues (own_of w') (scope_of w') gen0 c (fun _ _ _ _ l => forall i rc us, In (i, rc, us) (groups l) -> own_rc c rc) _ _ inps st pc w evs l R)).
    - intros ? ? ? [].
    - clear. intros st0 pc0 w0 e0 l0 st1 pc1 w1 e1 l1 (inps0 & R0) IH X i rc us I. rewrite groups_app in I. apply in_app_or in I as [I|I]; [eauto|].
      inv X; [destruct I|].
      match goal with H1 : save_all _ _ _ _ = _ |- _ => destruct (save_all_ok _ _ _ _ _ _ H1) as (E & _) end.
      match type of I with In _ (groups (LUses ?a ?b ?u :: ?x)) => change (groups (LUses a b u :: x)) with ((a, b, u) :: groups x) in I end.
      rewrite E in I. destruct I as [[= <- <- <-]|[]]. exact (run_names c _ _ _ _ R0).
  Qed.
End Slot.

Section Data.
  Context (fl : string -> bool) (P : PipeModel.penv) (cs : list ConfigModel.stage) (l : list (ConfigModel.stage * TrxModel.tset)).
  Notation sts := (map (fun x => PipeModel.stage_of P (fst x) (snd x)) l).
  Context (w' : wst) (outs : list (list (list (list client)))).
  Hypothesis PM : PipeModel.pe_make P = data_make fl.
  Hypothesis LD : PipeModel.load_stages P cs [] = Some l.
  Hypothesis OK : run_ok sts.
  Hypothesis PR : prepare_all sts (WSt scopes_new 0) = Some (w', outs).
  Context (a e g k : nat) (n : N) (c : client) (lens : list nat).
  Hypothesis CL : client_of sts outs a e g k n c lens.
  Context (gen0 : nat -> dgen) (inps : list (cinput dval * (nat -> option dgen))) (st : cst dval) (pc : cpc) (w : world (G := dgen) (V := dval))
    (evs : list (event dval)) (log : list (vlog dgen dval)).
  Hypothesis R : vrun dgen_values (own_of w') (EndSpec.scope_of w') gen0 c inps = Some (st, pc, w, evs, log).
  Hypothesis GM : gens_made fl l sts outs a gen0.
  Notation me := (client_counters e g k n).

  Lemma shared_legal key d pl p i rc us u : configured l a key d -> shared_key sts a key ->
    sane (ConfigModel.d_gen d) (ConfigModel.d_params d) -> ConfigModel.d_gen d <> "column" ->
    shared_runs sts outs a gen0 log me (ConfigModel.d_gen d) key ->
    used_at sts outs a pl key p -> In (i, rc, us) (groups log) -> In u us -> u_ptr u = p ->
    allowed me (ConfigModel.d_gen d) (ConfigModel.d_params d) (u_vals u).
  Proof using PM LD OK PR CL R GM.
    intros CF SK SN NC SR U I1 I2 I3. destruct (shared_made fl P cs l a key d PM LD CF SK) as [g0 M].
    destruct (GM _ _ _ _ _ CF U M) as [CP LE]. pose proof (copy_make fl _ _ _ M) as CM. rewrite CM in CP. injection CP as CP.
    destruct (SR _ _ U) as (t & s & tr & (ls & H) & (T1 & T2 & _) & OM).
    assert (IV : In (u_vals u) (rets_by t tr)).
    { rewrite <- T2. unfold values_in. apply in_flat_map. exists (i, rc, us). split; [exact I1|]. apply in_map. apply filter_In. split; [exact I2|]. now apply Nat.eqb_eq. }
    destruct (history_fine dgen_values (fun y => from_params fl (ConfigModel.d_gen d) (ConfigModel.d_params d) (fst y) /\ letters_end y)
      (fun rc => allowed rc (ConfigModel.d_gen d) (ConfigModel.d_params d))
      (fun y rcx FL => let '(conj F L) := FL in
         let '(conj A (conj B C)) := step_ok fl rcx _ _ y rcx F L SN NC (conj eq_refl (conj eq_refl (conj eq_refl eq_refl))) in conj (conj A B) C)
      (gen0 p) ls s tr) with (t := t) (v := u_vals u) as (ex & rc0 & X1 & t' & ex' & rc' & X2 & X3 & X4); auto.
    { split; [|exact LE]. rewrite <- CP. now apply made_from. }
    apply (allowed_mine _ rc'); [exact X4|]. intros NM. apply (OM NM t' ex'); [exact X2|].
    rewrite <- T1 in X1. unfold uses_in in X1. apply in_flat_map in X1 as ([[i0 rc1] us0] & Y1 & Y2). apply in_map_iff in Y2 as (u0 & Y2 & _). cbn [fst snd] in Y2. injection Y2 as _ <-.
    pose proof (me_own P l w' outs OK PR a e g k n c lens CL _ (groups_own dgen_values gen0 w' c inps st pc w evs log R _ _ _ Y1)) as (Z & _). congruence.
  Qed.
End Data.
