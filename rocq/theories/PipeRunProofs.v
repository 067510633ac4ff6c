(** From accepted configurations to runs: [run_ok] and [run_ready]. *)
From Verif Require Import Prelude ConfigModel ConfigSpec ConfigVarsProofs ConfigProofs TrxModel PipeModel PipeProofs.
From Verif Require ListAux ScopeModel ScopeSpec ScopeProofs StmtModel WorkloadModel WorkloadSpec GroupProofs RunProofs PrepProofs.
#[local] Open Scope string_scope.
#[local] Open Scope list_scope.

Module W := WorkloadModel.
Module WS := WorkloadSpec.

(** ** The trx of the groups *)
Lemma fill_in ts w : forall a d p pr cg, In cg (W.fill_groups ts w a d p pr) ->
  exists c, In c w /\ W.cg_trx cg = WS.trx_of ts c.
Proof.
  induction w as [|c w IH]; intros a d p pr cg H; cbn [W.fill_groups] in H; [easy|].
  assert (X : forall cg' l, In cg (cg' :: l) -> W.cg_trx cg' = WS.trx_of ts c ->
     (In cg l -> exists c, In c w /\ W.cg_trx cg = WS.trx_of ts c) -> exists c0, In c0 (c :: w) /\ W.cg_trx cg = WS.trx_of ts c0).
  { intros cg' l [<-|Hin] E R; [exists c; split; [now left|auto]|]. destruct (R Hin) as (c' & ? & ?). exists c'. split; [now right|auto]. }
  destruct (negb _); [eapply X; [exact H|reflexivity|eauto]|].
  destruct (W.has_ddl _ _); [eapply X; [exact H|reflexivity|eauto]|].
  destruct p; eapply X; try exact H; try reflexivity; eauto.
Qed.
Lemma groups_trx ts w wl gs cg t : W.groups ts w = Some (wl, gs) -> In cg wl -> In t (W.cg_trx cg) ->
  In t (W.ts_order ts) \/ exists c, In c w /\ In t (W.cg_trx c).
Proof.
  intros G Hc Ht. destruct (GroupProofs.groups_spec ts w) as (w0 & wl' & gs' & W1 & W2 & G' & F & _).
  rewrite G in G'. injection G' as <- <-. rewrite F in Hc. apply fill_in in Hc as (c & Hc & E). rewrite E in Ht.
  unfold WS.trx_of in Ht. destruct (W.cg_trx c) as [|t0 l] eqn:X; [now left|].
  destruct w as [|c0 w].
  - left. destruct (GroupProofs.auto_assign_ok ts) as (cgs & HA & prev & A & _). specialize (W2 eq_refl).
    rewrite W2 in HA. injection HA as <-. rewrite <- A. apply in_concat. exists (W.cg_trx c). split; [apply in_map; auto|now rewrite X].
  - right. rewrite W1 in Hc by discriminate. exists c. split; auto. now rewrite X.
Qed.

(** ** Keys *)
Definition keyed (ks : string -> option ScopeModel.key) (keys : smap key) : Prop :=
  forall k, ks k = option_map (key_of k) (sget k keys).

Lemma scope_of_left s :
  match scope_of s with Some ScopeModel.SStage | Some ScopeModel.SGlobal => true | _ => false end =
  (String.eqb s "stage" || String.eqb s "global")%bool.
Proof.
  unfold scope_of. destruct (String.eqb_spec s "global"); [subst; reflexivity|].
  destruct (String.eqb_spec s "stage"); [subst; reflexivity|]. cbn.
  repeat match goal with |- context [if ?b then _ else _] => destruct b end; reflexivity.
Qed.
Lemma scope_of_global s : scope_of s = Some ScopeModel.SGlobal -> s = "global".
Proof.
  unfold scope_of. destruct (String.eqb_spec s "global"); [auto|].
  repeat match goal with |- context [if ?b then _ else _] => destruct b end; discriminate.
Qed.

Lemma sget_filter {V} (p : string * V -> bool) (m : smap V) k : NoDup (skeys m) ->
  sget k (filter p m) = match sget k m with Some v => if p (k, v) then Some v else None | None => None end.
Proof.
  induction m as [|[a v] m IH]; cbn [skeys map filter sget fst]; intros N; [reflexivity|].
  apply NoDup_cons_iff in N as [N1 N2]. specialize (IH N2).
  destruct (String.eqb_spec k a).
  - subst. destruct (p (a, v)); [cbn; now rewrite String.eqb_refl|]. rewrite IH.
    destruct (sget a m) as [w|] eqn:E; [|reflexivity]. exfalso. apply N1. apply sget_keys. congruence.
  - destruct (p (a, v)); [cbn; destruct (String.eqb_spec k a); [congruence|]|]; exact IH.
Qed.
Lemma nodup_filter {V} (p : string * V -> bool) (m : smap V) : NoDup (skeys m) -> NoDup (skeys (filter p m)).
Proof.
  induction m as [|[a v] m IH]; cbn [skeys map filter fst]; intros N; [constructor|].
  apply NoDup_cons_iff in N as [N1 N2]. specialize (IH N2). destruct (p (a, v)); [|auto]. cbn. constructor; auto.
  intros H. apply N1. clear -H. induction m as [|[b w] m IH]; cbn in *; [auto|]. destruct (p (b, w)); cbn in *; intuition.
Qed.

Lemma keyed_carry ks keys : NoDup (skeys keys) -> keyed ks keys -> keyed (WS.carry ks) (keys_left keys).
Proof.
  intros N K k. unfold WS.carry, keys_left. rewrite K, sget_filter by auto. destruct (sget k keys) as [ky|]; [|reflexivity].
  cbn [option_map snd]. rewrite <- scope_of_left. cbn [ScopeModel.k_scope key_of].
  destruct (scope_of (k_scope ky)) as [[]|]; reflexivity.
Qed.
Lemma keyed_stage ks keys0 st keys : keyed (WS.carry ks) keys0 -> keys_sub keys0 keys ->
  keyed (W.sg_keys st) keys -> keyed (WS.stage_keys ks st) keys.
Proof.
  intros C S K k. unfold WS.stage_keys. rewrite C. destruct (sget k keys0) as [v|] eqn:E; [|apply K].
  rewrite (S _ _ E). reflexivity.
Qed.

(** ** Statements *)
Lemma stmts_in lid ps : forall i s, In s (stmts_of lid i ps) -> exists j p, In p ps /\ s = stmt_of (lid j) p.
Proof.
  induction ps as [|p ps IH]; intros i s H; [easy|]. cbn [stmts_of] in H. destruct H as [<-|H].
  - exists i, p. split; [now left|auto].
  - apply IH in H as (j & q & A & B). exists j, q. split; [now right|auto].
Qed.

(** The inserted ID cannot be saved in a globally scoped key (nor in @PREV). *)
Definition insert_ok (set : tset) (s : pstmt) : Prop :=
  p_insert s <> "" -> p_insert s <> "@PREV" /\
  (p_insert s = "_" \/ forall k, sget (p_insert s) (t_keys set) = Some k -> k_scope k <> "global").

Lemma ready ks set l s : keyed ks (t_keys set) -> stmt_in (t_keys set) s -> insert_ok set s ->
  PrepProofs.stmt_ready ks (stmt_of l s).
Proof.
  intros K (A & B & C & D) I.
  assert (X : forall k, sget k (t_keys set) <> None -> ks k <> None).
  { intros k H. rewrite K. destruct (sget k (t_keys set)); [discriminate|congruence]. }
  unfold PrepProofs.stmt_ready. cbn [StmtModel.st_calls StmtModel.st_inputs StmtModel.st_outputs StmtModel.st_insertId stmt_of].
  split; [auto|]. split; [intros k Hk; destruct (B k Hk); [left; assumption|right; auto]|]. split; [intros k Hk; right; auto|].
  intros NE. destruct D as [D|D]; [congruence|]. split; [auto|].
  destruct (I NE) as [I1 I2]. unfold WS.serves. change ScopeModel.PREV with "@PREV". change ScopeModel.NOOP_COLUMN with "_".
  destruct (String.eqb_spec (p_insert s) "@PREV"); [congruence|]. cbn [negb andb].
  destruct (String.eqb_spec (p_insert s) "_"); [reflexivity|]. cbn [orb].
  unfold WS.scope_in. rewrite K. destruct (sget (p_insert s) (t_keys set)) as [ky|] eqn:E; [|reflexivity].
  cbn [option_map ScopeModel.k_scope key_of]. destruct I2 as [I2|I2]; [congruence|]. specialize (I2 ky eq_refl).
  destruct (scope_of (k_scope ky)) as [[]|] eqn:SC; try reflexivity.
  - apply scope_of_global in SC. congruence.
  - cbn. destruct (String.eqb (k_gen ky) "column"); reflexivity.
Qed.

(** ** Stages *)
Section run.
  Context (P : penv).

  (** Requirements on the stages that config.Load meets. *)
  Definition trx_named (c : stage) : Prop := forall g name, In g (s_workload c) -> In name (g_trx g) ->
    exists x, In x (s_trx c) /\ x_name x = name.

  Lemma stage_trx c keys set wl gs cg t : load_stage P c keys = Some set -> NoDup (skeys keys) -> trx_named c ->
    W.groups (W.sg_ts (stage_of P c set)) (W.sg_wl (stage_of P c set)) = Some (wl, gs) ->
    In cg wl -> In t (W.cg_trx cg) ->
    exists ss, sget t (t_stmts set) = Some ss /\ ss <> [] /\ Forall (stmt_in (t_keys set)) ss.
  Proof.
    intros L ND TN G Hc Ht. unfold load_stage in L.
    apply load_trx_ok in L as ((_ & ST & OR) & _ & ORD).
    2:{ split; [exact ND|]. split; [intros n ss H; discriminate H|intros n []]. }
    cbn [t_order app] in ORD.
    assert (IN : In t (t_order set)).
    { destruct (groups_trx _ _ _ _ _ _ G Hc Ht) as [X|(c' & Hc' & X)]; [exact X|].
      cbn [W.sg_wl stage_of] in Hc'. apply in_map_iff in Hc' as (g & <- & Hg). cbn [W.cg_trx cgcfg_of] in X.
      destruct (TN g t Hg X) as (x & Hx & <-). rewrite ORD. now apply in_map. }
    destruct (sget t (t_stmts set)) as [ss|] eqn:E; [|exfalso; now apply (OR t)].
    exists ss. split; [auto|]. exact (ST t ss E).
  Qed.

  Definition run_inserts (l : list (stage * tset)) : Prop := forall c set n ss s, In (c, set) l ->
    sget n (t_stmts set) = Some ss -> In s ss -> insert_ok set s.

  Lemma load_ready cs : forall keys ks l, NoDup (skeys keys) -> keyed (WS.carry ks) keys ->
    load_stages P cs keys = Some l -> Forall trx_named cs -> run_inserts l ->
    PrepProofs.run_ready ks (map (fun x => stage_of P (fst x) (snd x)) l).
  Proof.
    induction cs as [|c cs IH]; intros keys ks l ND K H TN RI; cbn [load_stages] in H.
    - injection H as <-. exact I.
    - destruct (load_stage P c keys) as [set|] eqn:L; [|discriminate].
      destruct (load_stages P cs (keys_left (t_keys set))) as [rest|] eqn:R; [|discriminate].
      injection H as <-. inversion TN as [|? ? T1 T2]; subst. cbn [map PrepProofs.run_ready fst snd].
      assert (X : set_ok set /\ keys_sub keys (t_keys set)).
      { unfold load_stage in L. apply load_trx_ok in L as (A & B & _); [auto|].
        split; [exact ND|]. split; [intros n ss H; discriminate H|intros n []]. }
      destruct X as [(ND' & _) SUB].
      assert (KS : keyed (WS.stage_keys ks (stage_of P c set)) (t_keys set)).
      { apply keyed_stage with keys; auto. intros k. reflexivity. }
      split.
      + split.
        * intros k ky HK. cbn [W.sg_keys stage_of] in HK. destruct (sget k (t_keys set)); [|discriminate]. now injection HK as <-.
        * intros wl gs cg t G Hc Ht. destruct (stage_trx _ _ _ _ _ _ _ L ND T1 G Hc Ht) as (ss & E & NE & F).
          cbn [W.sg_ts stage_of trxset_of W.ts_stmts]. rewrite E. split.
          { destruct ss; [congruence|discriminate]. }
          apply Forall_forall. intros s Hs. apply stmts_in in Hs as (j & p & Hp & ->). apply ready with set; auto.
          { rewrite Forall_forall in F. auto. }
          apply (RI c set t ss p); auto. now left.
      + apply IH with (keys_left (t_keys set)); auto.
        * now apply nodup_filter.
        * now apply keyed_carry.
        * intros c' set' n ss s Hin. apply RI with c'. now right.
  Qed.

  Lemma load_ok cs : forall keys l, NoDup (skeys keys) ->
    load_stages P cs keys = Some l -> Forall trx_named cs -> map fst l = cs /\
    Forall (fun st => (forall k ky, W.sg_keys st k = Some ky -> ScopeModel.k_name ky = k) /\
                    (forall wl gs cg t, W.groups (W.sg_ts st) (W.sg_wl st) = Some (wl, gs) ->
                       In cg wl -> In t (W.cg_trx cg) -> W.ts_stmts (W.sg_ts st) t <> []))
      (map (fun x => stage_of P (fst x) (snd x)) l).
  Proof.
    induction cs as [|c cs IH]; intros keys l ND H TN; cbn [load_stages] in H.
    - injection H as <-. split; [auto|constructor].
    - destruct (load_stage P c keys) as [set|] eqn:L; [|discriminate].
      destruct (load_stages P cs (keys_left (t_keys set))) as [rest|] eqn:R; [|discriminate].
      injection H as <-. inversion TN as [|? ? T1 T2]; subst.
      assert (ND' : NoDup (skeys (t_keys set))).
      { unfold load_stage in L. apply load_trx_ok in L as ((A & _) & _); [auto|].
        split; [exact ND|]. split; [intros n ss H; discriminate H|intros n []]. }
      apply IH in R as [R1 R2]; auto; [|now apply nodup_filter]. cbn [map fst]. split; [now rewrite R1|]. constructor; auto. split.
      + intros k ky HK. cbn [W.sg_keys stage_of snd] in HK. destruct (sget k (t_keys set)); [|discriminate]. now injection HK as <-.
      + intros wl gs cg t G Hc Ht. destruct (stage_trx _ _ _ _ _ _ _ L ND T1 G Hc Ht) as (ss & E & NE & F).
        cbn [W.sg_ts stage_of trxset_of W.ts_stmts snd]. rewrite E. destruct ss; [congruence|discriminate].
  Qed.
End run.

(** ** config.Load numbers the stages *)
Lemma load_numbers E bases fs kvs dsn db cs i c : load E bases fs kvs dsn db = Some cs ->
  nth_error cs i = Some c -> s_n c = S i.
Proof.
  intros L Hi. apply load_nth in L as [HL L].
  destruct (nth_error fs i) as [f|] eqn:Hf.
  2:{ apply nth_error_None in Hf. assert (X : nth_error cs i <> None) by congruence. apply nth_error_Some in X. lia. }
  destruct (L i f Hf) as (b & c0 & c1 & c' & _ & _ & V & W & N). rewrite Hi in N. injection N as <-.
  apply validate_fields in W as (_ & _ & _ & -> & _).
  apply stage_vars_fields in V as (_ & _ & _ & _ & _ & _ & _ & _ & _ & _ & _ & -> & _). reflexivity.
Qed.

(** ** One stage of a run *)
Lemma prepare_nth sts : forall w w' outs a st, W.prepare_all sts w = Some (w', outs) -> nth_error sts a = Some st ->
  exists w1 w2 out, nth_error outs a = Some out /\ W.prepare_stage st w1 = Some (w2, out).
Proof.
  induction sts as [|s sts IH]; intros w w' outs a st H Ha; [destruct a; discriminate|]. cbn [W.prepare_all] in H.
  destruct (W.prepare_stage s w) as [[w1 out]|] eqn:E; [|discriminate].
  destruct (W.prepare_all sts w1) as [[w2 os]|] eqn:E2; [|discriminate]. injection H as <- <-.
  destruct a as [|a]; cbn in Ha |- *; [injection Ha as <-; eauto 6|]. eapply IH; eauto.
Qed.

Lemma load_stages_nth P cs : forall keys l a c set, NoDup (skeys keys) ->
  load_stages P cs keys = Some l -> nth_error l a = Some (c, set) ->
  exists keys0, NoDup (skeys keys0) /\ load_stage P c keys0 = Some set.
Proof.
  induction cs as [|c0 cs IH]; intros keys l a c set N H Ha; cbn [load_stages] in H.
  - injection H as <-. destruct a; discriminate.
  - destruct (load_stage P c0 keys) as [set0|] eqn:L; [|discriminate].
    destruct (load_stages P cs (keys_left (t_keys set0))) as [rest|] eqn:R; [|discriminate]. injection H as <-.
    destruct a as [|a]; cbn in Ha; [injection Ha as <- <-; eauto|]. eapply IH; [|exact R|exact Ha].
    apply nodup_filter. unfold load_stage in L. apply load_trx_ok in L as ((A & _) & _); [auto|].
    split; [exact N|]. split; [intros n ss H; discriminate H|intros n []].
Qed.

Lemma nth_ext_list {A} (l l' : list A) : (forall i, nth_error l i = nth_error l' i) -> l = l'.
Proof.
  revert l'. induction l as [|x l IH]; intros [|y l'] H; auto; [discriminate (H 0%nat)|discriminate (H 0%nat)|].
  f_equal; [now injection (H 0%nat)|]. apply IH. intros i. exact (H (S i)).
Qed.

(** Blocks of consecutive numbers. *)
Lemma concat_seq (gs : list (list nat)) : forall s n e refs g r, concat gs = seq s n -> nth_error gs e = Some refs ->
  nth_error refs g = Some r -> r = (s + list_sum (map (@List.length _) (firstn e gs)) + g)%nat.
Proof.
  induction gs as [|x gs IH]; intros s n e refs g r H He Hg; [destruct e; discriminate|]. cbn [concat] in H.
  assert (X : x = seq s (List.length x) /\ concat gs = seq (s + List.length x) (n - List.length x)).
  { clear -H. revert s n H. induction x as [|y x IHx]; intros s n H; cbn in H |- *; [now rewrite Nat.add_0_r, Nat.sub_0_r|].
    destruct n as [|n]; [discriminate|]. injection H as -> H. destruct (IHx (S s) n H) as [A B]. split; [now f_equal|].
    rewrite B. cbn. f_equal; lia. }
  destruct X as [X1 X2]. destruct e as [|e]; cbn in He |- *.
  - injection He as <-. assert (LT : (g < List.length x)%nat) by (apply nth_error_Some; congruence). rewrite X1 in Hg.
    rewrite (nth_error_nth' _ 0%nat) in Hg by (rewrite seq_length; lia). rewrite seq_nth in Hg by lia. injection Hg as <-. lia.
  - rewrite (IH _ _ _ _ _ _ X2 He Hg). unfold list_sum. lia.
Qed.

Lemma stmts_queries lid ps : forall i, map StmtModel.st_query (stmts_of lid i ps) = map p_query ps.
Proof. induction ps as [|p ps IH]; intros i; cbn; [reflexivity|]. now rewrite IH. Qed.

Section stage.
  Context (P : penv) (c : stage) (keys0 : smap key) (set : tset).
  Hypothesis (LOAD : load_stage P c keys0 = Some set) (NK : NoDup (skeys keys0)) (TN : trx_named c).

  (** Client group number [i] of the workload. *)
  Lemma group_clients w1 w2 out e css g cls grp : W.prepare_stage (stage_of P c set) w1 = Some (w2, out) ->
    nth_error out e = Some css -> nth_error css g = Some cls ->
    nth_error (s_workload c) (list_sum (map (@List.length _) (firstn e out)) + g) = Some grp ->
    let names := match g_trx grp with [] => map x_name (s_trx c) | l => l end in
    let ts := trxset_of (pe_lid P) set in
    exists name, let cg := W.cg_with (cgcfg_of grp) name names
        (if W.has_ddl ts names && (uint (g_iter grp) =? 0)%N then 1%N else uint (g_iter grp)) in
      List.length cls = N.to_nat (uint (g_clients grp)) /\
      forall k cl, nth_error cls k = Some cl -> InstanceProofs.client_of ts (W.sg_stats (stage_of P c set)) (W.sg_N (stage_of P c set)) e g k cg cl.
  Proof using LOAD NK TN.
    intros H He Hg Hgrp. unfold W.prepare_stage, W.allocate in H. cbn [WorkloadModel.w_sc WorkloadModel.w_next] in H.
    destruct (W.new_rate _ _) as [wa q] in H. destruct (W.new_rate _ _) as [wb t] in H.
    destruct (W.groups _ _) as [[wl gs]|] eqn:G in H; [|discriminate].
    apply InstanceProofs.clients_of in H as [LO CO].
    2:{ intros cg t0 Hcg Ht0. destruct (stage_trx P _ _ _ _ _ _ _ LOAD NK TN G Hcg Ht0) as (ss & E & NE & _).
        cbn [W.sg_ts stage_of trxset_of W.ts_stmts]. rewrite E. destruct ss; [congruence|discriminate]. }
    destruct (GroupProofs.groups_partition _ _ _ _ G) as (PART & _).
    assert (LEN : forall e, map (@List.length _) (firstn e out) = map (@List.length _) (firstn e gs)).
    { assert (map (@List.length _) out = map (@List.length _) gs).
      { apply nth_ext_list. intros i. rewrite !nth_error_map. destruct (nth_error out i) as [x|] eqn:E1.
        - destruct (CO i x E1) as (refs & E2 & E3 & _). rewrite E2. cbn. now rewrite E3.
        - apply nth_error_None in E1. rewrite LO in E1. apply nth_error_None in E1. now rewrite E1. }
      intros n. now rewrite <- !firstn_map, H. }
    destruct (CO e css He) as (refs & R1 & R2 & R3). destruct (R3 g cls Hg) as (r & cg & Q1 & Q2 & Q3 & Q4).
    pose proof (concat_seq _ _ _ _ _ _ _ PART R1 Q1) as ER. rewrite LEN in Hgrp. cbn [Nat.add] in ER. rewrite <- ER in Hgrp.
    assert (X : nth_error (W.sg_wl (stage_of P c set)) r = Some (cgcfg_of grp)).
    { cbn [W.sg_wl stage_of]. now rewrite nth_error_map, Hgrp. }
    assert (O : t_order set = map x_name (s_trx c)).
    { unfold load_stage in LOAD. apply load_trx_ok in LOAD as (_ & _ & O); [exact O|].
      split; [exact NK|]. split; [intros n ss Z; discriminate Z|intros n []]. }
    destruct (GroupProofs.groups_fill _ _ _ _ _ _ G X) as (name & Y & _). rewrite Q2 in Y. injection Y as ->.
    exists name. unfold WS.trx_of in *. cbn [W.cg_trx W.cg_with W.cg_iter W.cg_clients cgcfg_of W.sg_ts stage_of trxset_of W.ts_order] in *.
    rewrite O in *. split; [exact Q3|]. exact Q4.
  Qed.

  Lemma all_groups w1 w2 out : W.prepare_stage (stage_of P c set) w1 = Some (w2, out) -> s_workload c <> [] ->
    list_sum (map (@List.length _) out) = List.length (s_workload c).
  Proof using LOAD NK TN.
    intros H Hn. unfold W.prepare_stage, W.allocate in H. cbn [WorkloadModel.w_sc WorkloadModel.w_next] in H.
    destruct (W.new_rate _ _) as [wa q] in H. destruct (W.new_rate _ _) as [wb t] in H.
    destruct (W.groups _ _) as [[wl gs]|] eqn:G in H; [|discriminate].
    apply InstanceProofs.clients_of in H as [LO CO].
    2:{ intros cg t0 Hcg Ht0. destruct (stage_trx P _ _ _ _ _ _ _ LOAD NK TN G Hcg Ht0) as (ss & E & NE & _).
        cbn [W.sg_ts stage_of trxset_of W.ts_stmts]. rewrite E. destruct ss; [congruence|discriminate]. }
    assert (LEN : map (@List.length _) out = map (@List.length _) gs).
    { apply nth_ext_list. intros i. rewrite !nth_error_map. destruct (nth_error out i) as [x|] eqn:E1.
      - destruct (CO i x E1) as (refs & E2 & E3 & _). rewrite E2. cbn. now rewrite E3.
      - apply nth_error_None in E1. rewrite LO in E1. apply nth_error_None in E1. now rewrite E1. }
    destruct (GroupProofs.groups_partition _ _ _ _ G) as (PART & _).
    destruct (GroupProofs.groups_spec (W.sg_ts (stage_of P c set)) (W.sg_wl (stage_of P c set))) as (w0 & wl' & gs' & W1 & _ & G' & F & _).
    rewrite G in G'. injection G' as <- <-.
    apply (f_equal (@List.length _)) in PART. rewrite seq_length, F, GroupProofs.fill_length, W1 in PART.
    - cbn [W.sg_wl stage_of] in PART. rewrite map_length in PART. rewrite LEN, <- PART.
      clear. induction gs as [|g gs IH]; [reflexivity|]. cbn [map list_sum fold_right concat]. rewrite app_length. unfold list_sum in IH. now rewrite IH.
    - cbn [W.sg_wl stage_of]. destruct (s_workload c); [congruence|discriminate].
  Qed.

  Lemma default_clients w1 w2 out : W.prepare_stage (stage_of P c set) w1 = Some (w2, out) -> s_workload c = [] ->
    let ts := trxset_of (pe_lid P) set in
    exists parts, concat parts = map x_name (s_trx c) /\ List.length out = List.length parts /\
      (forall e trxs, nth_error parts e = Some trxs -> trxs <> [] /\
        ((exists t, trxs = [t] /\ W.ts_ddl ts t = true) \/ Forall (fun t => W.ts_ddl ts t = false) trxs)) /\
      (forall e a b, nth_error parts e = Some a -> nth_error parts (S e) = Some b ->
        exists t, In t (a ++ b) /\ W.ts_ddl ts t = true) /\
      forall e css trxs, nth_error out e = Some css -> nth_error parts e = Some trxs ->
        exists cl cg, css = [[cl]] /\ InstanceProofs.client_of ts (W.sg_stats (stage_of P c set)) (W.sg_N (stage_of P c set)) e 0 0 cg cl /\
          W.cg_trx cg = trxs /\ W.cg_disableStats cg = false /\ W.cg_db cg = "" /\
          W.cg_iter cg = (if existsb (W.ts_ddl ts) trxs then 1 else 0)%N.
  Proof using LOAD NK TN.
    intros H Hn ts. unfold W.prepare_stage, W.allocate in H. cbn [WorkloadModel.w_sc WorkloadModel.w_next] in H.
    destruct (W.new_rate _ _) as [wa q] in H. destruct (W.new_rate _ _) as [wb t] in H.
    destruct (W.groups _ _) as [[wl gs]|] eqn:G in H; [|discriminate].
    apply InstanceProofs.clients_of in H as [LO CO].
    2:{ intros cg t0 Hcg Ht0. destruct (stage_trx P _ _ _ _ _ _ _ LOAD NK TN G Hcg Ht0) as (ss & E & NE & _).
        cbn [W.sg_ts stage_of trxset_of W.ts_stmts]. rewrite E. destruct ss; [congruence|discriminate]. }
    cbn [W.sg_wl W.sg_ts stage_of] in G. rewrite Hn in G. cbn [map] in G. fold ts in G.
    destruct (GroupProofs.auto_workload ts) as (wl' & gs' & G' & CAT & GS & FA & DD).
    rewrite G in G'. injection G' as <- <-.
    assert (O : t_order set = map x_name (s_trx c)).
    { unfold load_stage in LOAD. apply load_trx_ok in LOAD as (_ & _ & O); [exact O|].
      split; [exact NK|]. split; [intros n ss Z; discriminate Z|intros n []]. }
    exists (map W.cg_trx wl). rewrite Forall_forall in FA.
    split; [now rewrite <- O|]. split; [now rewrite LO, GS, !map_length, seq_length|].
    assert (IT : forall cg, In cg wl -> W.cg_disableStats cg = false /\ W.cg_db cg = "" /\ W.cg_clients cg = 1%N /\
       W.cg_iter cg = (if existsb (W.ts_ddl ts) (W.cg_trx cg) then 1 else 0)%N).
    { intros cg Hcg. destruct (FA cg Hcg) as [_ [(u & nm & -> & B)|(nm & A & B)]].
      - cbn [W.cg_with W.cg_auto W.cg_disableStats W.cg_db W.cg_clients W.cg_iter W.cg_trx existsb]. rewrite B. auto.
      - rewrite A. cbn [W.cg_with W.cg_auto W.cg_disableStats W.cg_db W.cg_clients W.cg_iter W.cg_trx]. assert (X : existsb (W.ts_ddl ts) (W.cg_trx cg) = false); [|now rewrite X].
        apply not_true_is_false. intros X. apply existsb_exists in X as (u & U1 & U2). rewrite Forall_forall in B.
        rewrite (B u U1) in U2. discriminate. }
    split; [|split].
    - intros e trxs He. rewrite nth_error_map in He. destruct (nth_error wl e) as [cg|] eqn:E; [|discriminate]. injection He as <-.
      apply nth_error_In in E. destruct (FA cg E) as [A [(u & nm & -> & B)|(nm & _ & B)]]; split; auto. left. exists u. auto.
    - intros e a b Ha Hb. rewrite nth_error_map in Ha, Hb.
      destruct (nth_error wl e) as [ca|] eqn:E; [|discriminate]. injection Ha as <-.
      destruct (nth_error wl (S e)) as [cb|] eqn:E'; [|discriminate]. injection Hb as <-. eauto.
    - intros e css trxs He Ht. rewrite nth_error_map in Ht. destruct (nth_error wl e) as [cg|] eqn:E; [|discriminate]. injection Ht as <-.
      destruct (CO e css He) as (refs & R1 & R2 & R3). rewrite GS, nth_error_map in R1.
      assert (SE : nth_error (seq 0 (List.length wl)) e = Some e).
      { assert (e < List.length wl) by (apply nth_error_Some; congruence).
        rewrite (nth_error_nth' _ 0) by (rewrite seq_length; lia). now rewrite seq_nth by lia. }
      rewrite SE in R1. injection R1 as <-. destruct css as [|cls [|? ?]]; try discriminate.
      destruct (R3 0 cls eq_refl) as (r & cg' & Q1 & Q2 & Q3 & Q4). injection Q1 as <-. rewrite E in Q2. injection Q2 as <-.
      destruct (IT cg (nth_error_In _ _ E)) as (I1 & I2 & I3 & I4). rewrite I3 in Q3.
      destruct cls as [|cl [|? ?]]; try discriminate. exists cl, cg. split; [reflexivity|].
      split; [exact (Q4 0 cl eq_refl)|]. auto.
  Qed.

  Lemma client_trx w1 w2 out e css g cls cl grp : W.prepare_stage (stage_of P c set) w1 = Some (w2, out) ->
    nth_error out e = Some css -> nth_error css g = Some cls -> In cl cls ->
    nth_error (s_workload c) (list_sum (map (@List.length _) (firstn e out)) + g) = Some grp ->
    W.c_stmts cl = concat (map (W.ts_stmts (trxset_of (pe_lid P) set))
      (match g_trx grp with [] => map x_name (s_trx c) | l => l end)).
  Proof using LOAD NK TN.
    intros H He Hg Hc Hgrp. destruct (group_clients _ _ _ _ _ _ _ _ H He Hg Hgrp) as (name & _ & Q).
    apply In_nth_error in Hc as [k Hk]. destruct (Q k cl Hk) as (C1 & _). exact C1.
  Qed.

  (** The client groups as allocated. *)
  Lemma group_config w1 w2 out : W.prepare_stage (stage_of P c set) w1 = Some (w2, out) ->
    let ts := trxset_of (pe_lid P) set in
    exists wl gs, W.groups ts (map cgcfg_of (s_workload c)) = Some (wl, gs) /\
      (forall cg t, In cg wl -> In t (W.cg_trx cg) -> W.ts_stmts ts t <> []) /\
      map (@List.length _) out = map (@List.length _) gs /\
      forall e css g cls grp, nth_error out e = Some css -> nth_error css g = Some cls ->
        nth_error (s_workload c) (list_sum (map (@List.length _) (firstn e out)) + g) = Some grp ->
        let names := match g_trx grp with [] => map x_name (s_trx c) | l => l end in
        exists name, WS.cg_at wl gs e g = Some (W.cg_with (cgcfg_of grp) name names
          (if W.has_ddl ts names && (uint (g_iter grp) =? 0)%N then 1%N else uint (g_iter grp))).
  Proof using LOAD NK TN.
    intros H ts. unfold W.prepare_stage, W.allocate in H. cbn [WorkloadModel.w_sc WorkloadModel.w_next] in H.
    destruct (W.new_rate _ _) as [wa q] in H. destruct (W.new_rate _ _) as [wb t] in H.
    destruct (W.groups _ _) as [[wl gs]|] eqn:G in H; [|discriminate]. exists wl, gs. split; [exact G|].
    assert (NE : forall cg t0, In cg wl -> In t0 (W.cg_trx cg) -> W.ts_stmts ts t0 <> []).
    { intros cg t0 Hcg Ht0. destruct (stage_trx P _ _ _ _ _ _ _ LOAD NK TN G Hcg Ht0) as (ss & E & N & _).
      cbn [ts trxset_of W.ts_stmts]. rewrite E. destruct ss; [congruence|discriminate]. }
    split; [exact NE|].
    apply InstanceProofs.clients_of in H as [LO CO]; [|exact NE].
    destruct (GroupProofs.groups_partition _ _ _ _ G) as (PART & _).
    assert (SHAPE : map (@List.length _) out = map (@List.length _) gs).
    { apply nth_ext_list. intros i. rewrite !nth_error_map. destruct (nth_error out i) as [x|] eqn:E1.
      - destruct (CO i x E1) as (refs & E2 & E3 & _). rewrite E2. cbn. now rewrite E3.
      - apply nth_error_None in E1. rewrite LO in E1. apply nth_error_None in E1. now rewrite E1. }
    split; [exact SHAPE|]. intros e css g cls grp He Hg Hgrp names.
    assert (LEN : forall e, map (@List.length _) (firstn e out) = map (@List.length _) (firstn e gs)).
    { intros n. now rewrite <- !firstn_map, SHAPE. }
    destruct (CO e css He) as (refs & R1 & R2 & R3). destruct (R3 g cls Hg) as (r & cg & Q1 & Q2 & Q3 & Q4).
    pose proof (concat_seq _ _ _ _ _ _ _ PART R1 Q1) as ER. rewrite LEN in Hgrp. cbn [Nat.add] in ER. rewrite <- ER in Hgrp.
    assert (X : nth_error (W.sg_wl (stage_of P c set)) r = Some (cgcfg_of grp)).
    { cbn [W.sg_wl stage_of]. now rewrite nth_error_map, Hgrp. }
    assert (O : t_order set = map x_name (s_trx c)).
    { unfold load_stage in LOAD. apply load_trx_ok in LOAD as (_ & _ & O); [exact O|].
      split; [exact NK|]. split; [intros n ss Z; discriminate Z|intros n []]. }
    destruct (GroupProofs.groups_fill _ _ _ _ _ _ G X) as (name & Y & _). exists name.
    unfold WS.cg_at. rewrite R1, Q1, Y. unfold WS.trx_of. cbn [W.cg_trx cgcfg_of W.cg_iter W.sg_ts stage_of trxset_of W.ts_order].
    rewrite O. reflexivity.
  Qed.
End stage.
