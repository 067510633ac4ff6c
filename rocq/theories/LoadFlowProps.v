(** C125, C126: data limits of trx files do not block clients; size limits. *)
From Verif Require Import Prelude ListAux ScopeModel StmtModel WorkloadModel WorkloadSpec ClientModel ClientSpec.
From Verif Require Import IterModel IterSpec IterProofs LoopModel LoopSpec LoopProofs LoopCountProofs LoadModel LoadSpec LoadProofs LoadFlowProofs LoadSizeProofs LoadProps.
From Verif Require ConfigModel ConfigSpec ConfigProps TrxModel PipeModel PipeProofs PipeProps LoopProps LimitProofs LimitProps PaceModel PaceProofs ClientConnProofs.
#[local] Open Scope string_scope.
#[local] Open Scope list_scope.

(** ** The limits of the clients *)

Lemma leaves_size ms d ls : LimitModel.stmt_limit ms = Some d -> LimitSpec.leaves_of_data d = Some ls -> length ls = length ms.
Proof.
  unfold LimitModel.stmt_limit.
  assert (ONE : forall m d1 l1, LimitModel.mod_data m = Some d1 -> LimitSpec.leaves_of_data d1 = Some l1 -> length l1 = 1%nat).
  { intros [max off|tbl max|db max] d1 l1 E H; injection E as <-; cbn in H; [destruct (LimitModel.new_rows _ _); [|discriminate]|..]; injection H as <-; reflexivity. }
  assert (X : forall ms d0 n, (forall l0, LimitSpec.leaves_of_data d0 = Some l0 -> length l0 = n) ->
      fold_left (fun l m => LimitModel.data_or l (LimitModel.mod_data m)) ms (Some d0) = Some d -> LimitSpec.leaves_of_data d = Some ls -> length ls = (n + length ms)%nat).
  { clear ms. induction ms as [|m ms IH]; intros d0 n H0 F L; cbn [fold_left] in F; [injection F as ->; rewrite (H0 _ L); cbn; lia|].
    destruct (LimitModel.mod_data m) as [d1|] eqn:E; [|destruct m; discriminate]. cbn [LimitModel.data_or] in F.
    rewrite (IH (LimitModel.DOr d0 d1) (n + 1)%nat); cbn [length]; auto; [lia|].
    intros l0 H. cbn in H. destruct (LimitSpec.leaves_of_data d0) as [la|]; [|discriminate]. destruct (LimitSpec.leaves_of_data d1) as [lb|] eqn:LB; [|discriminate].
    injection H as <-. rewrite app_length, (H0 _ eq_refl), (ONE _ _ _ E LB). reflexivity. }
  destruct ms as [|m ms]; [discriminate|]. cbn [fold_left]. intros F L. destruct (LimitModel.mod_data m) as [d1|] eqn:E; [|destruct m; discriminate].
  cbn [LimitModel.data_or] in F. rewrite (X ms d1 1%nat); auto. intros l0 H. eapply ONE; eauto.
Qed.

(** The limits that clients use are those of statements of the trx files. *)
Lemma used_stmt E bases fs kvs dsn db Pe a c set out trx l : LoopProps.configured E bases fs kvs dsn db Pe a c set out -> trx_of c out trx ->
  used (map snd (labelled out)) l -> exists name j p, stmt_at set name j p /\ T.p_limits p <> [] /\ l = P.pe_lid Pe name j.
Proof.
  intros CF TO (cl & s & IC & IS & LM). apply In_nth_error in IC as (i & CI). apply In_nth_error in IS as (n & NS).
  rewrite (clients_stmts _ _ _ _ _ _ _ _ _ _ _ _ CF TO i cl CI) in NS.
  pose proof (place_nth Pe set (trx i) n) as PN. destruct (place (stmts_in set) (trx i) n) as [[name j]|]; [|congruence].
  destruct PN as (IN & p & SA & NS'). rewrite NS in NS'. injection NS' as ->. cbn [P.stmt_of st_limit] in LM.
  exists name, j, p. split; [exact SA|]. destruct (T.p_limits p); [discriminate|]. split; congruence.
Qed.
Lemma used_leaves E bases fs kvs dsn db Pe a c set out trx lims M : LoopProps.configured E bases fs kvs dsn db Pe a c set out -> trx_of c out trx ->
  limits_of Pe set lims -> (forall name j p, stmt_at set name j p -> (length (T.p_limits p) <= M)%nat) ->
  forall l ls, used (map snd (labelled out)) l -> lims l = Some ls -> (1 <= length ls <= M)%nat.
Proof.
  intros CF TO LO MX l ls U LL. destruct (used_stmt _ _ _ _ _ _ _ _ _ _ _ _ _ CF TO U) as (name & j & p & SA & NE & ->).
  pose proof SA as (ss & A & B). rewrite (LO _ _ _ _ A B NE) in LL.
  destruct (LimitModel.stmt_limit _) as [d|] eqn:SL; [|discriminate]. rewrite (leaves_size _ _ _ SL LL), map_length.
  specialize (MX _ _ _ SA). destruct (T.p_limits p); [congruence|]. cbn [length] in *. lia.
Qed.

(** ** C125: limits do not block clients *)

(** A client that has not returned can always go on, whatever the database answers. *)
Theorem C125_goes_on : forall E bases fs kvs dsn db Pe a c set out trx lims V tr (st : dst V) evs i,
  LoopProps.configured E bases fs kvs dsn db Pe a c set out -> trx_of c out trx -> limits_of Pe set lims ->
  load_run (load_init lims (map snd (labelled out))) tr = Some (st, evs) ->
  (i < length (labelled out))%nat -> (forall s r, ~ In (EvDone s r) (events_of i (map fst evs))) ->
  can_go st i.
Proof.
  intros E bases fs kvs dsn db Pe a c set out trx lims V tr st evs i CF TO LO RUN IL ND.
  assert (MX : exists M, forall name j p, stmt_at set name j p -> (length (T.p_limits p) <= M)%nat).
  { exists (list_max (concat (map (fun x => map (fun p => length (T.p_limits p)) (snd x)) (T.t_stmts set)))).
    intros name j p (ss & A & B). assert (F := list_max_le (concat (map (fun x => map (fun p => length (T.p_limits p)) (snd x)) (T.t_stmts set))) (list_max (concat (map (fun x => map (fun p => length (T.p_limits p)) (snd x)) (T.t_stmts set))))).
    destruct F as [F _]. specialize (F (Nat.le_refl _)). rewrite Forall_forall in F. apply F. apply in_concat.
    exists (map (fun p => length (T.p_limits p)) ss). split; [|apply (in_map (fun p => length (T.p_limits p))); eapply nth_error_In; eauto].
    apply in_map_iff. exists (name, ss). split; [reflexivity|]. clear - A. induction (T.t_stmts set) as [|[k v] l IH]; [discriminate|].
    cbn in A. destruct (String.eqb_spec name k) as [->|]; [left; congruence|right; auto]. }
  destruct MX as (M & MX). pose proof (used_leaves _ _ _ _ _ _ _ _ _ _ _ _ _ M CF TO LO MX) as UL.
  destruct (init_flows (V := V) (map snd (labelled out)) M lims i UL) as (I1 & I2 & I3 & I4 & _).
  destruct (run_flows _ M tr _ _ _ i I1 I2 I3 I4 RUN) as ((F1 & F2 & F3 & F4) & _).
  pose proof (load_loop_run _ _ _ _ RUN) as LR. cbn [load_init d_loop] in LR.
  destruct (sim_run _ _ _ _ LR) as (CS & ONE & _).
  destruct (nth_error (l_cls (d_loop st)) i) as [k|] eqn:K.
  2:{ apply nth_error_None in K. assert (length (l_cls (d_loop st)) = length (map snd (labelled out))) by (rewrite <- CS; now rewrite map_length).
      rewrite map_length in *. lia. }
  apply (flows_go _ M st i k F1 F2 F3 F4 K). intros PD. destruct (ONE i k K) as ((inps & CR) & _).
  pose proof (ClientConnProofs.done_run (l_c k) _ _ _ _ CR) as D. rewrite PD in D. destruct D as (l & s & E1 & _).
  apply (ND s (reported s)). rewrite E1. apply in_or_app. right. now left.
Qed.
Print Assumptions C125_goes_on.

(** And between two of its other steps it makes at most one check and one count for each single limit, and one more step. *)
Theorem C125_few_checks : forall E bases fs kvs dsn db Pe a c set out trx lims V tr (st : dst V) evs i M,
  LoopProps.configured E bases fs kvs dsn db Pe a c set out -> trx_of c out trx -> limits_of Pe set lims ->
  load_run (load_init lims (map snd (labelled out))) tr = Some (st, evs) ->
  (forall name j p, stmt_at set name j p -> (length (T.p_limits p) <= M)%nat) ->
  (count (limit_step i) tr <= (2 * M + 1) * count (other_step i) tr)%nat.
Proof.
  intros E bases fs kvs dsn db Pe a c set out trx lims V tr st evs i M CF TO LO RUN MX.
  pose proof (used_leaves _ _ _ _ _ _ _ _ _ _ _ _ _ M CF TO LO MX) as UL.
  destruct (init_flows (V := V) (map snd (labelled out)) M lims i UL) as (I1 & I2 & I3 & I4 & I5).
  destruct (run_flows _ M tr _ _ _ i I1 I2 I3 I4 RUN) as (_ & B). lia.
Qed.
Print Assumptions C125_few_checks.

(** ** C126: table sizes *)

Lemma count_same {A} (f g : A -> bool) l : Forall (fun x => f x = g x) l -> count f l = count g l.
Proof. unfold count. induction 1 as [|x l E F IH]; [reflexivity|]. cbn. rewrite E. destruct (g x); cbn; now rewrite IH. Qed.

(** How often the size is checked: C18_check_interval. *)
Definition interval (max : N) : N := if (max <=? 2^30)%N then 3%N else if (100 * 2^30 <=? max)%N then 1000%N else 5%N.
Lemma interval_m max tbl : L.z_m (L.new_size max "" tbl) = interval max.
Proof.
  destruct (LimitProps.C18_check_interval max tbl) as (A & B & C). unfold interval. destruct (N.leb_spec max (2^30)); [auto|].
  destruct (N.leb_spec (100 * 2^30) max); auto.
Qed.

(** A statement with "table-size: tbl max", executed by the clients; [tr2] are their steps once the table has that size.  They
    execute the statement only so many times more. *)
Theorem C126_stops : forall E bases fs kvs dsn db Pe a c set out trx lims V tr1 (st1 : dst V) evs1 tr2 st2 evs2 name j p max str tbl schema,
  LoopProps.configured E bases fs kvs dsn db Pe a c set out -> own_limits Pe set -> trx_of c out trx -> limits_of Pe set lims ->
  load_run (load_init lims (map snd (labelled out))) tr1 = Some (st1, evs1) -> load_run st1 tr2 = Some (st2, evs2) ->
  stmt_at set name j p -> T.p_resultset p = false -> T.p_limits p = [T.LSize max str "" tbl] ->
  (forall i c, In (DCheck i c) (tr1 ++ tr2) -> LimitSpec.mysql c /\ forall d, L.q_database c = Some d -> d = schema) ->
  (forall i c b, In (DCheck i c) tr2 -> L.q_bytes c (LimitSpec.table_query schema tbl) = Some b -> (max <= b)%N) ->
  let K := N.of_nat (length (labelled out)) in
  (N.of_nat (count (of_trx (stmts_in set) trx name j) evs2) <= K + (interval max - 1) * (K + 1))%N.
Proof.
  intros E bases fs kvs dsn db Pe a c set out trx lims V tr1 st1 evs1 tr2 st2 evs2 name j p max str tbl schema CF OWN TO LO R1 R2 SA RS PL Q B K.
  assert (NL : T.p_limits p <> []) by (rewrite PL; discriminate).
  assert (RUN : load_run (load_init lims (map snd (labelled out))) (tr1 ++ tr2) = Some (st2, evs1 ++ evs2)).
  { clear - R1 R2. revert R1. generalize (load_init (V := V) lims (map snd (labelled out))) as s. revert evs1. induction tr1 as [|e tr1 IH]; intros evs1 s R1; cbn [load_run app] in *.
    - injection R1 as -> <-. exact R2.
    - destruct (load_step s e) as [[s1 e1]|]; [|discriminate]. destruct (load_run s1 tr1) as [[s2 e2]|] eqn:X; [|discriminate]. injection R1 as -> <-.
      rewrite (IH _ _ X). now rewrite app_assoc. }
  pose proof (of_trx_writes Pe set c out trx name j p _ OWN SA NL RS (clients_stmts _ _ _ _ _ _ _ _ _ _ _ _ CF TO) (load_clients _ _ _ _ _ RUN) TO) as SAME.
  apply Forall_app in SAME as [_ SAME]. rewrite (count_same _ _ _ SAME). unfold K. rewrite <- (map_length snd (labelled out)), <- (interval_m max tbl).
  refine (size_load _ _ lims max schema tbl tr1 st1 evs1 tr2 st2 evs2 _ R1 R2 Q B).
  rewrite (limit_leaves Pe set lims name j p LO SA NL); [rewrite PL; reflexivity|]. unfold limits_fit. rewrite PL. repeat constructor.
Qed.
Print Assumptions C126_stops.

(** Where a client without iteration limits stopped (as in C121). *)
Lemma stopped_where E bases fs kvs dsn db Pe a c set out trx lims V tr (st : dst V) evs i e g cl grp :
  LoopProps.configured E bases fs kvs dsn db Pe a c set out -> trx_of c out trx ->
  load_run (load_init lims (map snd (labelled out))) tr = Some (st, evs) ->
  nth_error (labelled out) i = Some (e, g, cl) -> LoopProps.group_at c out e g grp ->
  LoopProps.unset (C.g_iter grp) -> LoopProps.unset (C.g_iter_c grp) -> LoopProps.unset (C.g_iter_x grp) ->
  existsb (PipeProps.ddl_trx set) (LoopProps.trx_names c grp) = false ->
  reached_limit (events_of i (map fst evs)) ->
  exists name j p, In name (LoopProps.trx_names c grp) /\ stmt_at set name j p /\ T.p_limits p <> [] /\ T.p_resultset p = false /\
    exists tr1 tr2 st1 evs1 s, tr = tr1 ++ tr2 /\ load_run (load_init lims (map snd (labelled out))) tr1 = Some (st1, evs1) /\
      d_lims st1 (P.pe_lid Pe name j) = Some s /\ L.l_ph s i = L.LGone.
Proof.
  intros CF TO RUN J G U1 U2 U3 DD (rr & RL). set (cs := map snd (labelled out)) in *.
  destruct (LoopProps.labelled_at _ _ _ _ _ J) as (css & cls & He & Hg & Hc).
  destruct (LoopProps.config_facts _ _ _ _ _ _ _ _ _ _ _ CF) as (ws & sn & wl0 & qn & tn & w1 & w2 & wl & gs & HA & HG & NE & SH & CG & _ & NUM).
  destruct (CG e css g cls grp He Hg G) as (gname & X & _). rewrite DD, (LoopProps.unset_uint _ U1) in X. cbn [andb] in X.
  pose proof (nth_error_In _ _ J) as JI.
  pose proof (lab_iter _ _ _ _ _ _ _ _ _ _ _ HA HG _ _ _ _ NE JI X) as CI. cbn [cg_with cg_iter] in CI.
  destruct (lab_cfg _ _ _ _ _ _ _ _ _ _ _ HA HG _ _ _ JI) as (cg & X' & Y1 & _ & Y2 & _).
  rewrite X in X'. injection X' as <-. cbn [cg_with cg_iterClients cg_iterExecGroup P.cgcfg_of] in Y1, Y2.
  rewrite (LoopProps.unset_uint _ U2) in Y1. rewrite (LoopProps.unset_uint _ U3) in Y2.
  unfold events_of in RL. apply in_map_iff in RL as ((i' & ev) & E1 & RL). cbn in E1. subst ev. apply filter_In in RL as (RL & EI).
  apply Nat.eqb_eq in EI. cbn in EI. subst i'. apply in_map_iff in RL as (([i' ev] & w) & E1 & RL). cbn in E1. injection E1 as -> ->.
  destruct (load_split _ _ _ _ _ RUN RL) as (tr1 & de & tr2 & st1 & evs1 & st2 & evs2 & evs3 & -> & R1 & S & I2 & R2 & ->).
  pose proof (step_loop _ _ _ _ S) as SL. destruct de as [i0 c0|i0 inp w0|i0]; try (destruct SL as (_ & ->); contradiction).
  destruct SL as (evs0 & LS & M). assert (IM : In (i, EvDone StopLimit rr) (map (fun ev => (i0, ev)) evs0)) by (rewrite <- M; apply (in_map fst) in I2; exact I2).
  apply in_map_iff in IM as (ev & EQ & IE). injection EQ as -> ->.
  destruct (limit_reason _ _ _ _ _ _ LS IE) as (k & K & Y).
  pose proof (load_fits cs _ _ _ _ (init_fits _ _) R1) as F1.
  assert (KC : l_c k = cl).
  { destruct F1 as (F1 & _). assert (Z : nth_error cs i = Some (l_c k)) by (rewrite <- F1, nth_error_map, K; reflexivity).
    unfold cs in Z. rewrite nth_error_map, J in Z. cbn in Z. congruence. }
  destruct Y as [(cnt & LC)|(se & l & -> & LK & VM)].
  { exfalso. unfold loop_check in LC. rewrite KC, Y1, Y2, CI in LC. unfold shared_check in LC. cbn in LC. destruct (l_chk k) as [|[|]]; discriminate. }
  destruct (stopped_gone _ _ _ _ _ _ _ _ _ S K eq_refl LK VM) as (s & DS & GONE).
  unfold limited in LK. destruct (l_pc k) as [| |n|]; try discriminate. destruct (nth_error (c_stmts (l_c k)) n) as [sm|] eqn:NS; [|discriminate].
  destruct (st_idle sm =? 0)%Z; [|discriminate]. destruct (st_resultset sm) eqn:RS; [discriminate|]. cbn [andb negb] in LK.
  assert (CI0 : nth_error cs i = Some cl) by (unfold cs; now rewrite nth_error_map, J).
  rewrite KC, (clients_stmts _ _ _ _ _ _ _ _ _ _ _ _ CF TO i cl CI0) in NS.
  pose proof (place_nth Pe set (trx i) n) as PN. destruct (place (stmts_in set) (trx i) n) as [[name j]|]; [|congruence].
  destruct PN as (IN & p & SA & NS'). rewrite NS in NS'. injection NS' as ->.
  cbn [P.stmt_of st_limit st_resultset] in LK, RS.
  destruct (TO _ _ _ _ J) as (grp' & G' & TR). assert (grp' = grp) as -> by (unfold LoopProps.group_at in *; congruence). rewrite TR in IN.
  exists name, j, p. split; [exact IN|]. split; [exact SA|].
  assert (NL : T.p_limits p <> []) by (intros Z; rewrite Z in LK; discriminate). split; [exact NL|]. split; [exact RS|].
  assert (LL : l = P.pe_lid Pe name j) by (destruct (T.p_limits p); congruence). subst l.
  exists tr1, (DLoop i (LStmt se) w0 :: tr2), st1, evs1, s. auto.
Qed.

(** A client without iteration limits that stopped at a limit did so at a statement of its trx with a data limit; if that is a
    table size, the database has said that the table has this size, or could not be asked. *)
Theorem C126_not_early : forall E bases fs kvs dsn db Pe a c set out trx lims V tr (st : dst V) evs i e g cl grp schema,
  LoopProps.configured E bases fs kvs dsn db Pe a c set out -> trx_of c out trx -> limits_of Pe set lims ->
  load_run (load_init lims (map snd (labelled out))) tr = Some (st, evs) ->
  nth_error (labelled out) i = Some (e, g, cl) -> LoopProps.group_at c out e g grp ->
  LoopProps.unset (C.g_iter grp) -> LoopProps.unset (C.g_iter_c grp) -> LoopProps.unset (C.g_iter_x grp) ->
  existsb (PipeProps.ddl_trx set) (LoopProps.trx_names c grp) = false ->
  reached_limit (events_of i (map fst evs)) ->
  (forall i c, In (DCheck i c) tr -> LimitSpec.mysql c /\ forall d, L.q_database c = Some d -> d = schema) ->
  exists name j p, In name (LoopProps.trx_names c grp) /\ stmt_at set name j p /\ T.p_limits p <> [] /\ T.p_resultset p = false /\
    forall max str tbl, T.p_limits p = [T.LSize max str "" tbl] ->
      exists i c, In (DCheck i c) tr /\
        (L.q_database c = None \/ L.q_exec c ("ANALYZE TABLE " ++ tbl)%string = false \/ L.q_bytes c (LimitSpec.table_query schema tbl) = None \/
         exists b, L.q_bytes c (LimitSpec.table_query schema tbl) = Some b /\ (max <= b)%N).
Proof.
  intros E bases fs kvs dsn db Pe a c set out trx lims V tr st evs i e g cl grp schema CF TO LO RUN J G U1 U2 U3 DD RL Q.
  destruct (stopped_where _ _ _ _ _ _ _ _ _ _ _ _ _ _ _ _ _ _ _ _ _ _ CF TO RUN J G U1 U2 U3 DD RL)
    as (name & j & p & IN & SA & NL & RS & tr1 & tr2 & st1 & evs1 & s & -> & R1 & D & PH).
  exists name, j, p. repeat (split; [assumption|]). intros max str tbl PL.
  assert (LM : lims (P.pe_lid Pe name j) = Some [L.LSize (L.new_size max "" tbl)]).
  { rewrite (limit_leaves Pe set lims name j p LO SA NL); [rewrite PL; reflexivity|]. unfold limits_fit. rewrite PL. repeat constructor. }
  destruct (size_gone _ _ lims max schema tbl tr1 st1 evs1 s i LM R1 D PH) as (i0 & c0 & I & X).
  { intros i0 c0 I. apply (Q i0 c0). apply in_or_app. now left. }
  exists i0, c0. split; [apply in_or_app; now left|exact X].
Qed.
Print Assumptions C126_not_early.

(** With "database-size: schema max" (C19) the clients together execute the statement only so many times, however small the
    database is. *)
Theorem C19_clients_stop : forall E bases fs kvs dsn db Pe a c set out trx lims V tr (st : dst V) evs name j p max str schema,
  LoopProps.configured E bases fs kvs dsn db Pe a c set out -> own_limits Pe set -> trx_of c out trx -> limits_of Pe set lims ->
  load_run (load_init lims (map snd (labelled out))) tr = Some (st, evs) -> (N.of_nat (length tr) < 2 ^ 64)%N ->
  stmt_at set name j p -> T.p_resultset p = false -> T.p_limits p = [T.LSize max str schema ""] -> schema <> "" ->
  (forall i c, In (DCheck i c) tr -> LimitSpec.mysql c /\ L.q_tables c <> None) ->
  (N.of_nat (count (of_trx (stmts_in set) trx name j) evs) <= (interval max - 1) * (N.of_nat (length (labelled out)) + 1))%N.
Proof.
  intros E bases fs kvs dsn db Pe a c set out trx lims V tr st evs name j p max str schema CF OWN TO LO RUN LN SA RS PL NE Q.
  assert (NL : T.p_limits p <> []) by (rewrite PL; discriminate).
  pose proof (of_trx_writes Pe set c out trx name j p _ OWN SA NL RS (clients_stmts _ _ _ _ _ _ _ _ _ _ _ _ CF TO) (load_clients _ _ _ _ _ RUN) TO) as SAME.
  rewrite (count_same _ _ _ SAME), <- (map_length snd (labelled out)), <- (interval_m max "").
  change (L.z_m (L.new_size max "" "")) with (L.z_m (L.new_size max schema "")).
  refine (database_load _ _ lims max schema tr st evs _ NE RUN LN Q).
  rewrite (limit_leaves Pe set lims name j p LO SA NL); [|unfold limits_fit; rewrite PL; repeat constructor].
  rewrite PL. cbn [map mod_of]. destruct (String.eqb_spec schema ""); [congruence|reflexivity].
Qed.
Print Assumptions C19_clients_stop.

(** ** Examples *)

Module ExT.
  (** As in LoadProps.ExD, with the size of the table, or of the database, as limit. *)
  Definition stage := match C.load LoopProps.ExL.E ConfigProps.no_base [ConfigProps.file (PipeProps.stage1 "s" ExD.xs ExD.gs)] [] "" "" with
    | Some [c] => c | _ => PipeProps.stage1 "" [] [] end.
  Section Limit.
    Variable limit : string.
    Definition files (f : string) : option (list string) :=
      if String.eqb f "ins.sql" then Some [limit; "INSERT INTO t VALUES (@d), (@d)"] else PipeProps.files1 f.
    Definition Pe : P.penv :=
      P.PEnv TrxProps.E1 TrxProps.make1 (fun ks => ks) (fun ks => ks) (fun _ => files) (fun s i => if String.eqb s "w" then S (2 * i) else (2 * i)%nat).
    Definition out := match C.load LoopProps.ExL.E ConfigProps.no_base [ConfigProps.file (PipeProps.stage1 "s" ExD.xs ExD.gs)] [] "" "" with
      | Some cs => match P.load_stages Pe cs [] with
                   | Some l => match P.prepare_run Pe l with Some (_, [o]) => o | _ => [] end
                   | None => [] end
      | None => [] end.
    Definition set := match C.load LoopProps.ExL.E ConfigProps.no_base [ConfigProps.file (PipeProps.stage1 "s" ExD.xs ExD.gs)] [] "" "" with
      | Some cs => match P.load_stages Pe cs [] with Some [(_, s)] => s | _ => T.TSet [] [] [] [] end
      | None => T.TSet [] [] [] [] end.
  End Limit.
  (** the database of the connection is d, and a table has [b] bytes *)
  Definition db (b : N) : LimitModel.conn :=
    LimitModel.Conn (Some [("d", "t")]) (Some "d") (fun q => negb (String.eqb q "") && negb (String.eqb q "ANALYZE TABLE "))%bool (fun _ => Some b).
  Definition next (b : N) (st : dst Z) (i : nat) : devent Z := match ExD.next st i with DCheck i _ => DCheck i (db b) | e => e end.
  (** [n] steps, round robin *)
  Fixpoint drive (b : N) (n t : nat) (st : dst Z) : list (devent Z) :=
    match n with
    | O => []
    | S n' => let e := next b st (Nat.modulo t 3) in
              match load_step st e with
              | Some (st', _) => e :: drive b n' (S t) st'
              | None => drive b n' (S t) st end
    end.
  (** [n] steps from the beginning, and 100 more when the table has 1 GB *)
  Definition st0 (limit : string) : dst Z := load_init (made_limits (Pe limit) (set limit)) (map snd (labelled (out limit))).
  Definition tr1 (limit : string) (b : N) (n : nat) := drive b n 0 (st0 limit).
  Definition run1 (limit : string) (b : N) (n : nat) := load_run (st0 limit) (tr1 limit b n).
  Definition state (r : option (dst Z * list (nat * event Z * Z))) : dst Z := match r with Some (st, _) => st | None => st0 "" end.
  Definition events (r : option (dst Z * list (nat * event Z * Z))) := match r with Some (_, evs) => evs | None => [] end.
  Definition tr2 (limit : string) (b : N) (n : nat) := drive 1000000000 100 0 (state (run1 limit b n)).
  Definition run2 (limit : string) (b : N) (n : nat) := load_run (state (run1 limit b n)) (tr2 limit b n).
End ExT.
Lemma runs r : option_map snd r <> None -> r = Some (ExT.state r, ExT.events r).
Proof. destruct r as [[st evs]|]; [reflexivity|cbn; congruence]. Qed.

Lemma run1_eq limit b n : ExT.run1 limit b n = load_run (ExT.st0 limit) (ExT.tr1 limit b n).
Proof. reflexivity. Qed.
Lemma run2_eq limit b n : ExT.run2 limit b n = load_run (ExT.state (ExT.run1 limit b n)) (ExT.tr2 limit b n).
Proof. reflexivity. Qed.
Lemma drive_db b n : forall t st i c, In (DCheck i c) (ExT.drive b n t st) -> c = ExT.db b.
Proof.
  induction n as [|n IH]; intros t st i c H; [destruct H|]. cbn [ExT.drive] in H.
  destruct (load_step st _) as [[st' x]|]; [|eauto]. destruct H as [H|H]; [|eauto].
  unfold ExT.next in H. destruct (ExD.next st _); inversion H; reflexivity.
Qed.
Lemma tr1_db limit b n i c : In (DCheck i c) (ExT.tr1 limit b n) -> c = ExT.db b.
Proof. apply drive_db. Qed.
Lemma tr2_db limit b n i c : In (DCheck i c) (ExT.tr2 limit b n) -> c = ExT.db 1000000000.
Proof. apply drive_db. Qed.
Lemma db_mysql b : LimitSpec.mysql (ExT.db b) /\ L.q_tables (ExT.db b) <> None /\ (forall d, L.q_database (ExT.db b) = Some d -> d = "d") /\ forall q, L.q_bytes (ExT.db b) q = Some b.
Proof. repeat split; [discriminate|]. intros d [= <-]. reflexivity. Qed.
Lemma own_rw Pe set : map fst (T.t_stmts set) = ["r"; "w"] ->
  (forall s i, P.pe_lid Pe s i = if String.eqb s "w" then S (2 * i) else (2 * i)%nat) -> own_limits Pe set.
Proof.
  intros M LID name j p name' j' p' (ss & A & _) (ss' & A' & _) EQ.
  assert (X : forall n ss, C.sget n (T.t_stmts set) = Some ss -> n = "r" \/ n = "w").
  { intros n ss0 H. assert (In n (map fst (T.t_stmts set))).
    { clear - H. induction (T.t_stmts set) as [|[k v] l IH]; [discriminate|]. cbn in H |- *. destruct (String.eqb_spec n k) as [->|]; [now left|right]. now apply IH. }
    rewrite M in H0. destruct H0 as [<-|[<-|[]]]; auto. }
  rewrite !LID in EQ. destruct (X _ _ A) as [->| ->], (X _ _ A') as [->| ->]; cbn in EQ; split; auto; lia.
Qed.

(** The hypotheses of the theorems, but for the run. *)
Definition set_up (limit : string) : Prop :=
  let c := ExT.stage in
  let set := ExT.set limit in let out := ExT.out limit in let Pe := ExT.Pe limit in
  LoopProps.configured LoopProps.ExL.E ConfigProps.no_base [ConfigProps.file (PipeProps.stage1 "s" ExD.xs ExD.gs)] [] "" "" Pe 0 c set out /\
  own_limits Pe set /\ trx_of c out ExD.trx /\ limits_of Pe set (made_limits Pe set) /\ length (labelled out) = 3%nat.
Lemma set_up_table : set_up "-- table-size: t 1GB".
Proof.
  unfold set_up. cbv zeta. split.
  { do 4 eexists. split; [vm_compute; reflexivity|]. split; [repeat constructor|]. split; [vm_compute; reflexivity|].
    split; [vm_compute; reflexivity|]. split; vm_compute; reflexivity. }
  assert (OWN : own_limits (ExT.Pe "-- table-size: t 1GB") (ExT.set "-- table-size: t 1GB")) by (apply own_rw; [vm_compute|]; reflexivity).
  split; [exact OWN|]. split.
  { intros i e g cl H. vm_compute in H. destruct i as [|[|[|i]]]; [injection H as <- <- _; eexists; split; reflexivity..|destruct i; discriminate]. }
  split; [apply limits_made, OWN|reflexivity].
Qed.
Lemma set_up_database : set_up "-- database-size: d 1GB".
Proof.
  unfold set_up. cbv zeta. split.
  { do 4 eexists. split; [vm_compute; reflexivity|]. split; [repeat constructor|]. split; [vm_compute; reflexivity|].
    split; [vm_compute; reflexivity|]. split; vm_compute; reflexivity. }
  assert (OWN : own_limits (ExT.Pe "-- database-size: d 1GB") (ExT.set "-- database-size: d 1GB")) by (apply own_rw; [vm_compute|]; reflexivity).
  split; [exact OWN|]. split.
  { intros i e g cl H. vm_compute in H. destruct i as [|[|[|i]]]; [injection H as <- <- _; eexists; split; reflexivity..|destruct i; discriminate]. }
  split; [apply limits_made, OWN|reflexivity].
Qed.

(** The table has 10 bytes for 100 steps: the statement is executed 13 times.  Then it has 1 GB: 5 times more, and all have
    stopped; the bound is 11. *)
Example C126_example : exists p cl grp,
  let limit := "-- table-size: t 1GB" in
  let tr1 := ExT.tr1 limit 10 100 in let tr2 := ExT.tr2 limit 10 100 in
  let st1 := ExT.state (ExT.run1 limit 10 100) in let evs1 := ExT.events (ExT.run1 limit 10 100) in
  let st2 := ExT.state (ExT.run2 limit 10 100) in let evs2 := ExT.events (ExT.run2 limit 10 100) in
  let w := of_trx (stmts_in (ExT.set limit)) ExD.trx "w" 0 in
  set_up limit /\ load_run (ExT.st0 limit) tr1 = Some (st1, evs1) /\ load_run st1 tr2 = Some (st2, evs2) /\
  stmt_at (ExT.set limit) "w" 0 p /\ T.p_resultset p = false /\ T.p_limits p = [T.LSize 1000000000 "1000000000" "" "t"] /\
  (forall i c, In (DCheck i c) (tr1 ++ tr2) -> LimitSpec.mysql c /\ forall d, L.q_database c = Some d -> d = "d") /\
  (forall i c b, In (DCheck i c) tr2 -> L.q_bytes c (LimitSpec.table_query "d" "t") = Some b -> (1000000000 <= b)%N) /\
  nth_error (labelled (ExT.out limit)) 2 = Some (0%nat, 1%nat, cl) /\ LoopProps.group_at ExT.stage (ExT.out limit) 0 1 grp /\
  LoopProps.unset (C.g_iter grp) /\ LoopProps.unset (C.g_iter_c grp) /\ LoopProps.unset (C.g_iter_x grp) /\
  existsb (PipeProps.ddl_trx (ExT.set limit)) (LoopProps.trx_names ExT.stage grp) = false /\
  reached_limit (events_of 2 (map fst (evs1 ++ evs2))) /\
  count w evs1 = 13%nat /\ count w evs2 = 5%nat /\ interval 1000000000 = 3%N.
Proof.
  do 3 eexists. cbv zeta. split; [exact set_up_table|].
  split; [rewrite <- run1_eq; apply runs; vm_compute; discriminate|].
  split; [rewrite <- run2_eq; apply runs; vm_compute; discriminate|].
  split; [eexists; split; vm_compute; reflexivity|]. split; [reflexivity|]. split; [reflexivity|].
  split.
  { intros i c0 H. apply in_app_or in H as [H|H]; [apply tr1_db in H|apply tr2_db in H]; subst c0; [destruct (db_mysql 10) as (A & _ & B & _)|destruct (db_mysql 1000000000) as (A & _ & B & _)]; auto. }
  split.
  { intros i c0 b H. apply tr2_db in H. subst c0. rewrite (proj2 (proj2 (proj2 (db_mysql 1000000000)))). intros [= <-]. apply N.le_refl. }
  split; [vm_compute; reflexivity|]. split; [vm_compute; reflexivity|].
  split; [now left|]. split; [now left|]. split; [now left|]. split; [vm_compute; reflexivity|].
  split; [apply LoopProps.reached_in; vm_compute; reflexivity|]. split; [vm_compute; reflexivity|]. split; vm_compute; reflexivity.
Qed.

Lemma none_done (l : list (event Z)) : forallb (fun e => match e with EvDone _ _ => false | _ => true end) l = true -> forall s r, ~ In (EvDone s r) l.
Proof. intros F s r H. rewrite forallb_forall in F. specialize (F _ H). discriminate. Qed.
Lemma few_limits set M : forallb (fun x => forallb (fun p => (length (T.p_limits p) <=? M)%nat) (snd x)) (T.t_stmts set) = true ->
  forall name j p, stmt_at set name j p -> (length (T.p_limits p) <= M)%nat.
Proof.
  intros X name j p (ss & A & B). rewrite forallb_forall in X. assert (IN : In (name, ss) (T.t_stmts set)).
  { revert A. generalize (T.t_stmts set) as l. clear.
    induction l as [|[k v] l IH]; [discriminate|]. cbn. destruct (String.eqb_spec name k) as [->|]; [intros [= ->]; now left|intros H; right; auto]. }
  specialize (X _ IN). rewrite forallb_forall in X. apply Nat.leb_le. apply X. cbn. eapply nth_error_In; eauto.
Qed.

(** After 30 steps no client is done: all can go on. *)
Example C125_example :
  let limit := "-- table-size: t 1GB" in
  let tr := ExT.tr1 limit 10 30 in
  let st := ExT.state (ExT.run1 limit 10 30) in let evs := ExT.events (ExT.run1 limit 10 30) in
  set_up limit /\ load_run (ExT.st0 limit) tr = Some (st, evs) /\
  (forall s r, ~ In (EvDone s r) (events_of 2 (map fst evs))) /\
  (forall name j p, stmt_at (ExT.set limit) name j p -> (length (T.p_limits p) <= 1)%nat) /\
  count (limit_step 0) tr = 3%nat /\ count (other_step 0) tr = 7%nat.
Proof.
  cbv zeta. split; [exact set_up_table|]. split; [rewrite <- run1_eq; apply runs; vm_compute; discriminate|].
  split.
  { apply none_done. vm_compute. reflexivity. }
  split.
  { apply few_limits. vm_compute. reflexivity. }
  split; vm_compute; reflexivity.
Qed.

(** The database has 10 bytes: the clients stop after executing the statement 6 times; the bound is 8. *)
Example C19_clients_example : exists p,
  let limit := "-- database-size: d 1GB" in
  let tr := ExT.tr1 limit 10 100 in
  let st := ExT.state (ExT.run1 limit 10 100) in let evs := ExT.events (ExT.run1 limit 10 100) in
  set_up limit /\ load_run (ExT.st0 limit) tr = Some (st, evs) /\ (N.of_nat (length tr) < 2 ^ 64)%N /\
  stmt_at (ExT.set limit) "w" 0 p /\ T.p_resultset p = false /\ T.p_limits p = [T.LSize 1000000000 "1000000000" "d" ""] /\
  (forall i c, In (DCheck i c) tr -> LimitSpec.mysql c /\ L.q_tables c <> None) /\
  count (of_trx (stmts_in (ExT.set limit)) ExD.trx "w" 0) evs = 6%nat.
Proof.
  eexists. cbv zeta. split; [exact set_up_database|]. split; [rewrite <- run1_eq; apply runs; vm_compute; discriminate|].
  split; [vm_compute; reflexivity|]. split; [eexists; split; vm_compute; reflexivity|]. split; [reflexivity|]. split; [reflexivity|].
  split; [|vm_compute; reflexivity].
  intros i c0 H. apply tr1_db in H. subst c0. destruct (db_mysql 10) as (A & B & _). auto.
Qed.
