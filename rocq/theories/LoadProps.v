(** C120, C121: row limits of trx files, and how many rows the clients write. *)
From Verif Require Import Prelude ListAux ScopeModel StmtModel WorkloadModel WorkloadSpec ClientModel ClientSpec.
From Verif Require Import IterModel IterSpec IterProofs LoopModel LoopSpec LoopProofs LoopCountProofs LoadModel LoadSpec LoadProofs.
From Verif Require ConfigModel ConfigSpec ConfigProps TrxModel PipeModel PipeProofs PipeProps LoopProps LimitProofs LimitProps PaceModel PaceProofs.
Module C := ConfigModel.
Module CS := ConfigSpec.
Module T := TrxModel.
Module P := PipeModel.
#[local] Open Scope string_scope.
#[local] Open Scope list_scope.

Definition stmts_in (set : T.tset) (name : string) : nat :=
  match C.sget name (T.t_stmts set) with Some ps => length ps | None => 0%nat end.

(** [trx i] are the trx of the client group that client [i] belongs to. *)
Definition trx_of (c : C.stage) (out : list (list (list client))) (trx : nat -> list string) : Prop :=
  forall i e g cl, nth_error (labelled out) i = Some (e, g, cl) ->
    exists grp, LoopProps.group_at c out e g grp /\ trx i = LoopProps.trx_names c grp.

(** Statement [j] of trx [name] of the stage is [p]. *)
Definition stmt_at (set : T.tset) (name : string) (j : nat) (p : T.pstmt) : Prop :=
  exists ss, C.sget name (T.t_stmts set) = Some ss /\ nth_error ss j = Some p.

(** Statements have limits of their own. *)
Definition own_limits (Pe : P.penv) (set : T.tset) : Prop :=
  forall name j p name' j' p', stmt_at set name j p -> stmt_at set name' j' p' -> P.pe_lid Pe name j = P.pe_lid Pe name' j' ->
    name = name' /\ j = j'.

(** The numbers given to row limits fit 63 bits. *)
Definition limits_fit (p : T.pstmt) : Prop :=
  Forall (fun l => match l with T.LRows max off => (0 < max < 2^63 /\ off < 2^63)%N | _ => True end) (T.p_limits p).

(** Clients and limits as made from the configuration file run, with these results. *)
Definition loaded E bases fs kvs dsn db Pe a c set out trx V (evs : list (nat * event V * Z)) : Prop :=
  LoopProps.configured E bases fs kvs dsn db Pe a c set out /\ own_limits Pe set /\ trx_of c out trx /\
  exists lims tr st, limits_of Pe set lims /\ load_run (load_init lims (map snd (labelled out))) tr = Some (st, evs).

(** ** Statements of trx files and statements of clients *)

Lemma stmts_of_nth lid ps : forall i n, nth_error (P.stmts_of lid i ps) n = option_map (P.stmt_of (lid (i + n)%nat)) (nth_error ps n).
Proof.
  induction ps as [|p ps IH]; intros i n; [destruct n; reflexivity|]. destruct n as [|n]; cbn [P.stmts_of nth_error option_map].
  - now rewrite Nat.add_0_r.
  - rewrite IH. replace (S i + n)%nat with (i + S n)%nat by lia. reflexivity.
Qed.
Lemma stmts_of_length lid ps : forall i, length (P.stmts_of lid i ps) = length ps.
Proof. induction ps as [|p ps IH]; intros i; [reflexivity|]. cbn. now rewrite IH. Qed.

Lemma place_nth Pe set names : forall n,
  match place (stmts_in set) names n with
  | Some (name, j) => In name names /\ exists p, stmt_at set name j p /\
      nth_error (concat (map (ts_stmts (P.trxset_of (P.pe_lid Pe) set)) names)) n = Some (P.stmt_of (P.pe_lid Pe name j) p)
  | None => nth_error (concat (map (ts_stmts (P.trxset_of (P.pe_lid Pe) set)) names)) n = None
  end.
Proof.
  induction names as [|x names IH]; intros n; [destruct n; reflexivity|].
  cbn [place map concat]. 
  assert (LN : length (ts_stmts (P.trxset_of (P.pe_lid Pe) set) x) = stmts_in set x).
  { cbn. unfold stmts_in. destruct (C.sget x (T.t_stmts set)); [apply stmts_of_length|reflexivity]. }
  destruct (Nat.ltb_spec n (stmts_in set x)) as [Lt|Ge].
  - split; [now left|]. rewrite nth_error_app1 by lia. cbn. unfold stmt_at. unfold stmts_in in Lt. destruct (C.sget x (T.t_stmts set)) as [ss|] eqn:SG; [|lia].
    rewrite stmts_of_nth. destruct (nth_error ss n) as [p|] eqn:NP; [|apply nth_error_None in NP; lia]. exists p. split; eauto.
  - specialize (IH (n - stmts_in set x)%nat). rewrite nth_error_app2 by lia. rewrite LN.
    destruct (place _ names _) as [[name j]|]; [|exact IH]. destruct IH as (I & X). split; [now right|exact X].
Qed.

Lemma load_clients {V} lims cs tr (st : dst V) evs : load_run (load_init lims cs) tr = Some (st, evs) ->
  Forall (fun x => (fst (fst x) < length cs)%nat) evs.
Proof.
  assert (G : forall tr (st st' : dst V) evs, fits cs st -> load_run st tr = Some (st', evs) -> Forall (fun x => (fst (fst x) < length cs)%nat) evs).
  { clear. induction tr as [|e tr IH]; intros st st' evs F H; cbn [load_run] in H; [injection H as <- <-; constructor|].
    destruct (load_step st e) as [[st1 e1]|] eqn:S; [|discriminate]. destruct (load_run st1 tr) as [[st2 e2]|] eqn:R; [|discriminate].
    injection H as <- <-. apply Forall_app. split; [|eapply IH; [eapply step_fits; eauto|exact R]].
    pose proof (step_loop _ _ _ _ S) as X. destruct e as [i c|i inp w|i]; try (destruct X as (_ & ->); constructor).
    destruct X as (evs0 & LS & M). apply Forall_forall. intros x I.
    assert (fst x = (fst (fst x), snd (fst x))) as EQ by (destruct x as [[]]; reflexivity).
    assert (IM : In (fst x) (map (fun ev => (i, ev)) evs0)) by (rewrite <- M; now apply in_map).
    apply in_map_iff in IM as (ev & <- & _). cbn [fst]. destruct F as (CS & _). rewrite <- CS, map_length. apply nth_error_Some.
    destruct (PaceProofs.loop_execs _ _ _ _ _ LS) as (k & K & _). congruence. }
  intros H. eapply G; [apply init_fits|exact H].
Qed.

Lemma rows_same {V} (f g : nat * event V * Z -> bool) evs : Forall (fun x => f x = g x) evs ->
  rows_where f evs = rows_where g evs /\ forall r, rows_each f r evs -> rows_each g r evs.
Proof.
  intros H. induction H as [|x evs E F IH].
  { split; [reflexivity|]. intros r _. constructor. }
  destruct IH as (IH1 & IH2). split.
  - cbn [rows_where fold_right]. rewrite E. fold (rows_where f evs). fold (rows_where g evs). now rewrite IH1.
  - intros r R. inversion R; subst. constructor; [now rewrite <- E|now apply IH2].
Qed.

(** The executions of a limited statement of a trx are those with its limit. *)
Lemma of_trx_writes {V} Pe set c out trx name j p (cs := map snd (labelled out)) (evs : list (nat * event V * Z)) :
  own_limits Pe set -> stmt_at set name j p -> T.p_limits p <> [] -> T.p_resultset p = false ->
  (forall i cl, nth_error cs i = Some cl -> c_stmts cl = concat (map (ts_stmts (P.trxset_of (P.pe_lid Pe) set)) (trx i))) ->
  Forall (fun x => (fst (fst x) < length cs)%nat) evs -> trx_of c out trx ->
  Forall (fun x => of_trx (stmts_in set) trx name j x = writes cs (P.pe_lid Pe name j) x) evs.
Proof.
  intros OWN SA NL RS ST F TO. eapply Forall_impl; [|exact F]. clear F. intros [[i ev] w] LT. cbn [fst] in LT.
  destruct ev as [| | | | | | |n pp cc rc vs res x| | | | |]; try reflexivity. destruct res; [reflexivity|].
  cbn [of_trx writes]. unfold uses. destruct (nth_error cs i) as [cl|] eqn:CI; [|apply nth_error_None in CI; lia].
  rewrite (ST i cl CI). pose proof (place_nth Pe set (trx i) n) as PN. destruct (place (stmts_in set) (trx i) n) as [[name' j']|]; [|now rewrite PN].
  destruct PN as (_ & p' & SA' & ->). cbn [P.stmt_of st_limit st_resultset].
  destruct (String.eqb_spec name' name) as [->|NE]; [destruct (Nat.eqb_spec j' j) as [->|NE]|].
  - assert (p' = p) as ->.
    { destruct SA as (ss & A & B), SA' as (ss' & A' & B'). rewrite A in A'. injection A' as <-. congruence. }
    rewrite RS. destruct (T.p_limits p); [congruence|]. now rewrite Nat.eqb_refl.
  - destruct (T.p_limits p') as [|x0 l0]; [reflexivity|]. destruct (Nat.eqb_spec (P.pe_lid Pe name j') (P.pe_lid Pe name j)) as [X|]; [|reflexivity].
    destruct (OWN _ _ _ _ _ _ SA' SA X). congruence.
  - destruct (T.p_limits p') as [|x0 l0]; [reflexivity|]. destruct (Nat.eqb_spec (P.pe_lid Pe name' j') (P.pe_lid Pe name j)) as [X|]; [|reflexivity].
    destruct (OWN _ _ _ _ _ _ SA' SA X). congruence.
Qed.

Lemma clients_stmts E bases fs kvs dsn db Pe a c set out trx : LoopProps.configured E bases fs kvs dsn db Pe a c set out -> trx_of c out trx ->
  forall i cl, nth_error (map snd (labelled out)) i = Some cl ->
    c_stmts cl = concat (map (ts_stmts (P.trxset_of (P.pe_lid Pe) set)) (trx i)).
Proof.
  intros CF TO i cl CI. rewrite nth_error_map in CI. destruct (nth_error (labelled out) i) as [[[e g] cl']|] eqn:J; [|discriminate]. injection CI as ->.
  destruct (TO _ _ _ _ J) as (grp & G & ->).
  destruct (LoopProps.labelled_at _ _ _ _ _ J) as (css & cls & He & Hg & Hc).
  destruct (LoopProps.config_facts _ _ _ _ _ _ _ _ _ _ _ CF) as (ws & sn & wl0 & qn & tn & w1 & w2 & wl & gs & HA & HG & NE & SH & CG & _).
  destruct (CG e css g cls grp He Hg G) as (_ & _ & ST). auto.
Qed.

Lemma fit_mods p : limits_fit p -> Forall LimitSpec.mod_fits (map mod_of (T.p_limits p)).
Proof.
  unfold limits_fit. intros F. apply Forall_map. eapply Forall_impl; [|exact F]. intros [max off|max str d t] H; cbn; [exact H|]. destruct (String.eqb d ""); exact Logic.I.
Qed.
Lemma limit_leaves Pe set lims name j p : limits_of Pe set lims -> stmt_at set name j p -> T.p_limits p <> [] -> limits_fit p ->
  lims (P.pe_lid Pe name j) = Some (map LimitSpec.mod_leaf (map mod_of (T.p_limits p))).
Proof.
  intros LO (ss & A & B) NE F. rewrite (LO _ _ _ _ A B NE). apply fit_mods in F.
  destruct (LimitModel.stmt_limit (map mod_of (T.p_limits p))) as [d|] eqn:SL; [now apply LimitProofs.stmt_limit_leaves|]. exfalso.
  unfold LimitModel.stmt_limit in SL. destruct (T.p_limits p) as [|l ls]; [congruence|]. cbn [map fold_left] in SL.
  assert (X : forall ms d, fold_left (fun l m => LimitModel.data_or l (LimitModel.mod_data m)) ms (Some d) <> None).
  { induction ms as [|m ms IH]; intros d; [discriminate|]. cbn [fold_left]. destruct m; cbn; apply IH. }
  destruct (mod_of l); cbn in SL; eapply X; eauto.
Qed.

(** ** C120: at most so many rows are written *)

(** A statement with "rows: N offset", executed by all clients that run its trx: together they write at most N-1 rows and what
    each of them writes once.  ([Z.max off]: nothing is written if the offset has reached the limit.) *)
Theorem C120_rows_bound : forall E bases fs kvs dsn db Pe a c set out trx V evs name j p max off r,
  loaded E bases fs kvs dsn db Pe a c set out trx V evs ->
  stmt_at set name j p -> T.p_resultset p = false -> In (T.LRows max off) (T.p_limits p) -> limits_fit p ->
  rows_each (of_trx (stmts_in set) trx name j) r evs -> (0 <= r)%Z ->
  (Z.of_N max - 1 + Z.of_nat (length (labelled out)) * r < 2^63)%Z ->
  (Z.of_N off + rows_where (of_trx (stmts_in set) trx name j) evs <=
     Z.max (Z.of_N off) (Z.of_N max - 1 + Z.of_nat (length (labelled out)) * r))%Z.
Proof.
  intros E bases fs kvs dsn db Pe a c set out trx V evs name j p max off r (CF & OWN & TO & lims & tr & st & LO & RUN) SA RS IN FIT RE R0 B.
  assert (NE : T.p_limits p <> []) by (intros X; rewrite X in IN; contradiction).
  pose proof (of_trx_writes Pe set c out trx name j p evs OWN SA NE RS (clients_stmts _ _ _ _ _ _ _ _ _ _ _ _ CF TO) (load_clients _ _ _ _ _ RUN) TO) as SAME.
  destruct (rows_same _ _ _ SAME) as (-> & RE'). apply RE' in RE.
  pose proof (limit_leaves _ _ _ _ _ _ LO SA NE FIT) as LV.
  set (cs := map snd (labelled out)) in *. set (l := P.pe_lid Pe name j) in *.
  assert (D : d_lims (load_init (V := V) lims cs) l = Some (L.linit (map LimitSpec.mod_leaf (map mod_of (T.p_limits p))))) by (cbn; now rewrite LV).
  assert (H0 : hist cs r (L.linit (map LimitSpec.mod_leaf (map mod_of (T.p_limits p)))) (L.linit (map LimitSpec.mod_leaf (map mod_of (T.p_limits p)))))
    by (exists []; split; constructor).
  destruct (load_hist cs l r tr _ _ _ _ _ (init_fits _ _) RUN RE D H0) as (s & _ & (tr' & LR & _) & W).
  cbn [L.linit LimitModel.l_written] in W. rewrite Z.add_0_l in W. rewrite <- W.
  apply In_nth_error in IN as (i & IN).
  assert (LEN : length cs = length (labelled out)) by apply map_length. rewrite LEN in LR.
  assert (FM : (0 < max < 2^63 /\ off < 2^63)%N).
  { unfold limits_fit in FIT. rewrite Forall_forall in FIT. exact (FIT _ (nth_error_In _ _ IN)). }
  apply (LimitProofs.rows_bound (length (labelled out)) r (Z.of_N max) (Z.of_N off) i (map LimitSpec.mod_leaf (map mod_of (T.p_limits p))) R0 ltac:(lia) B) with (tr := tr').
  - rewrite !nth_error_map, IN. reflexivity.
  - exact LR.
Qed.
Print Assumptions C120_rows_bound.

(** ** C121: and not fewer *)

(** A client without iteration limits that stopped at a limit did so at a statement of its trx with a data limit; if that is a
    row limit, the clients together have written at least as many rows. *)
Theorem C121_rows_reached : forall E bases fs kvs dsn db Pe a c set out trx V evs i e g cl grp,
  loaded E bases fs kvs dsn db Pe a c set out trx V evs ->
  nth_error (labelled out) i = Some (e, g, cl) -> LoopProps.group_at c out e g grp ->
  LoopProps.unset (C.g_iter grp) -> LoopProps.unset (C.g_iter_c grp) -> LoopProps.unset (C.g_iter_x grp) ->
  existsb (PipeProps.ddl_trx set) (LoopProps.trx_names c grp) = false ->
  reached_limit (events_of i (map fst evs)) ->
  exists name j p, In name (LoopProps.trx_names c grp) /\ stmt_at set name j p /\ T.p_limits p <> [] /\ T.p_resultset p = false /\
    forall max off r, T.p_limits p = [T.LRows max off] -> limits_fit p ->
      rows_each (of_trx (stmts_in set) trx name j) r evs -> (0 <= r)%Z ->
      (Z.of_N max - 1 + Z.of_nat (length (labelled out)) * r < 2^63)%Z ->
      (Z.of_N max <= Z.of_N off + rows_where (of_trx (stmts_in set) trx name j) evs)%Z.
Proof.
  intros E bases fs kvs dsn db Pe a c set out trx V evs i e g cl grp (CF & OWN & TO & lims & tr & st & LO & RUN) J G U1 U2 U3 DD (rr & RL).
  set (cs := map snd (labelled out)) in *.
  (* the client has no iteration limit *)
  destruct (LoopProps.labelled_at _ _ _ _ _ J) as (css & cls & He & Hg & Hc).
  destruct (LoopProps.config_facts _ _ _ _ _ _ _ _ _ _ _ CF) as (ws & sn & wl0 & qn & tn & w1 & w2 & wl & gs & HA & HG & NE & SH & CG & _ & NUM).
  destruct (CG e css g cls grp He Hg G) as (gname & X & _). rewrite DD, (LoopProps.unset_uint _ U1) in X. cbn [andb] in X.
  pose proof (nth_error_In _ _ J) as JI.
  pose proof (lab_iter _ _ _ _ _ _ _ _ _ _ _ HA HG _ _ _ _ NE JI X) as CI. cbn [cg_with cg_iter] in CI.
  destruct (lab_cfg _ _ _ _ _ _ _ _ _ _ _ HA HG _ _ _ JI) as (cg & X' & Y1 & _ & Y2 & _).
  rewrite X in X'. injection X' as <-. cbn [cg_with cg_iterClients cg_iterExecGroup P.cgcfg_of] in Y1, Y2.
  rewrite (LoopProps.unset_uint _ U2) in Y1. rewrite (LoopProps.unset_uint _ U3) in Y2.
  (* where it stopped *)
  unfold events_of in RL. apply in_map_iff in RL as ((i' & ev) & E1 & RL). cbn in E1. subst ev. apply filter_In in RL as (RL & EI).
  apply Nat.eqb_eq in EI. cbn in EI. subst i'. apply in_map_iff in RL as (([i' ev] & w) & E1 & RL). cbn in E1. injection E1 as -> ->.
  destruct (load_split _ _ _ _ _ RUN RL) as (tr1 & de & tr2 & st1 & evs1 & st2 & evs2 & evs3 & -> & R1 & S & I2 & R2 & ->).
  pose proof (step_loop _ _ _ _ S) as SL. destruct de as [i0 c0|i0 inp w0|i0]; try (destruct SL as (_ & ->); contradiction).
  destruct SL as (evs0 & LS & M). assert (IM : In (i, EvDone StopLimit rr) (map (fun ev => (i0, ev)) evs0)) by (rewrite <- M; apply (in_map fst) in I2; exact I2).
  apply in_map_iff in IM as (ev & EQ & IE). injection EQ as -> ->.
  destruct (limit_reason _ _ _ _ _ _ LS IE) as (k & K & Y).
  pose proof (load_fits cs _ _ _ _ (init_fits _ _) R1) as F1.
  assert (KC : l_c k = cl).
  { destruct F1 as (F1 & _). assert (Z : nth_error cs i = Some (l_c k)) by (rewrite <- F1, nth_error_map, K; reflexivity).
    unfold cs in Z. rewrite nth_error_map, J in Z. cbn in Z. congruence. }
  destruct Y as [(cnt & LC)|(se & l & -> & LK & VM)].
  { exfalso. unfold loop_check in LC. rewrite KC, Y1, Y2, CI in LC. unfold shared_check in LC. cbn in LC. destruct (l_chk k) as [|[|]]; discriminate. }
  destruct (stopped_gone _ _ _ _ _ _ _ _ _ S K eq_refl LK VM) as (s & DS & GONE).
  (* the statement *)
  unfold limited in LK. destruct (l_pc k) as [| |n|]; try discriminate. destruct (nth_error (c_stmts (l_c k)) n) as [sm|] eqn:NS; [|discriminate].
  destruct (st_idle sm =? 0)%Z; [|discriminate]. destruct (st_resultset sm) eqn:RS; [discriminate|]. cbn [andb negb] in LK.
  assert (CI0 : nth_error cs i = Some cl) by (unfold cs; now rewrite nth_error_map, J).
  rewrite KC, (clients_stmts _ _ _ _ _ _ _ _ _ _ _ _ CF TO i cl CI0) in NS.
  pose proof (place_nth Pe set (trx i) n) as PN. destruct (place (stmts_in set) (trx i) n) as [[name j]|]; [|congruence].
  destruct PN as (IN & p & SA & NS'). rewrite NS in NS'. injection NS' as ->.
  cbn [P.stmt_of st_limit st_resultset] in LK, RS.
  destruct (TO _ _ _ _ J) as (grp' & G' & TR). assert (grp' = grp) as -> by (unfold LoopProps.group_at in *; congruence). rewrite TR in IN.
  exists name, j, p. split; [exact IN|]. split; [exact SA|].
  assert (NL : T.p_limits p <> []) by (intros Z; rewrite Z in LK; discriminate). split; [exact NL|]. split; [exact RS|].
  intros max off r PL FIT RE R0 B.
  assert (LL : l = P.pe_lid Pe name j) by (destruct (T.p_limits p); congruence). subst l.
  pose proof (of_trx_writes Pe set c out trx name j p _ OWN SA NL RS (clients_stmts _ _ _ _ _ _ _ _ _ _ _ _ CF TO) (load_clients _ _ _ _ _ RUN) TO) as SAME.
  destruct (rows_same _ _ _ SAME) as (-> & RE'). apply RE' in RE. fold cs in RE |- *.
  pose proof (limit_leaves _ _ _ _ _ _ LO SA NL FIT) as LV. rewrite PL in LV. cbn in LV.
  assert (D : d_lims (load_init (V := V) lims cs) (P.pe_lid Pe name j) = Some (L.linit [LimitModel.LRows (LimitModel.Rows (Z.of_N max) (Z.of_N off))]))
    by (cbn; now rewrite LV).
  assert (H0 : hist cs r (L.linit [LimitModel.LRows (LimitModel.Rows (Z.of_N max) (Z.of_N off))]) (L.linit [LimitModel.LRows (LimitModel.Rows (Z.of_N max) (Z.of_N off))]))
    by (exists []; split; constructor).
  assert (REa := RE). apply Forall_app in REa as [RE1 RE2]. 
  destruct (load_hist cs _ r tr1 _ _ _ _ _ (init_fits _ _) R1 RE1 D H0) as (s' & DS' & (tr' & LR & NLV) & W).
  rewrite DS in DS'. injection DS' as <-. cbn [L.linit LimitModel.l_written] in W.
  assert (LEN : length cs = length (labelled out)) by apply map_length. rewrite LEN in LR.
  assert (FM : (0 < max < 2^63 /\ off < 2^63)%N).
  { unfold limits_fit in FIT. rewrite PL in FIT. now apply Forall_inv in FIT. }
  pose proof (gone_written _ r (Z.of_N max) (Z.of_N off) R0 ltac:(lia) B tr' s i LR NLV GONE) as GW.
  rewrite written_app. pose proof (written_pos _ _ _ _ RE2). lia.
Qed.
Print Assumptions C121_rows_reached.

(** ** Examples *)

(** The limits of the statements of a stage. *)
Definition all_stmts (set : T.tset) : list (string * nat) :=
  concat (map (fun name => map (fun j => (name, j)) (seq 0 (stmts_in set name))) (map fst (T.t_stmts set))).
Definition made_limits (Pe : P.penv) (set : T.tset) (l : nat) : option (list L.leaf) :=
  match find (fun x => Nat.eqb (P.pe_lid Pe (fst x) (snd x)) l) (all_stmts set) with
  | Some (name, j) =>
    match C.sget name (T.t_stmts set) with
    | Some ss => match nth_error ss j with
                 | Some p => match L.stmt_limit (map mod_of (T.p_limits p)) with Some d => LimitSpec.leaves_of_data d | None => None end
                 | None => None end
    | None => None end
  | None => None end.
Lemma limits_made Pe set : own_limits Pe set -> limits_of Pe set (made_limits Pe set).
Proof.
  intros OWN. unfold made_limits. set (all := all_stmts set).
  intros name ss j p A B NL.
  assert (IN : In (name, j) all).
  { unfold all, all_stmts. apply in_concat. exists (map (fun j => (name, j)) (seq 0 (stmts_in set name))). split.
    - apply in_map_iff. exists name. split; [reflexivity|]. clear - A. induction (T.t_stmts set) as [|[k v] l IH]; [discriminate|].
      cbn in A |- *. destruct (String.eqb_spec name k) as [->|]; [now left|right]. now apply IH.
    - apply in_map_iff. exists j. split; [reflexivity|]. apply in_seq. unfold stmts_in. rewrite A.
      assert (j < length ss)%nat by (apply nth_error_Some; congruence). lia. }
  destruct (find _ all) as [[name' j']|] eqn:F.
  - apply find_some in F as (I' & EQ). apply Nat.eqb_eq in EQ. cbn in EQ.
    assert (SA : exists p', stmt_at set name' j' p').
    { unfold all, all_stmts in I'. apply in_concat in I' as (x & X & I'). apply in_map_iff in X as (n0 & <- & X). apply in_map_iff in I' as (j0 & [= -> ->] & I').
      apply in_seq in I'. unfold stmts_in in I'. destruct (C.sget name' (T.t_stmts set)) as [ss'|] eqn:A'; [|lia].
      destruct (nth_error ss' j') as [p'|] eqn:B'; [|apply nth_error_None in B'; lia]. exists p', ss'. auto. }
    destruct SA as (p' & SA). destruct (OWN _ _ _ _ _ _ SA (ex_intro _ ss (conj A B)) EQ) as (-> & ->). rewrite A, B. reflexivity.
  - apply (find_none _ _ F) in IN. cbn in IN. rewrite Nat.eqb_refl in IN. discriminate.
Qed.

Module ExD.
  (** Two clients insert two rows at a time, up to 8; a third one does so too, after another query.  There is one row
      already. *)
  Definition files (f : string) : option (list string) :=
    if String.eqb f "ins.sql" then Some ["-- rows: 8 1"; "INSERT INTO t VALUES (@d), (@d)"] else PipeProps.files1 f.
  Definition xs : list C.trx := [C.Trx "r" "read.sql" [("d", PipeProps.d_int "")]; C.Trx "w" "ins.sql" [("d", PipeProps.d_int "")]].
  Definition gs : list C.cgroup :=
    [C.CGroup "2" "" false "" "" "" "a" "" "" "" "" "" "" "" ["w"];
     C.CGroup "" "" false "" "" "" "a" "" "" "" "" "" "" "" ["r"; "w"]].
  Definition Pe : P.penv :=
    P.PEnv ConfigProps.E0 TrxProps.make1 (fun ks => ks) (fun ks => ks) (fun _ => files) (fun s i => if String.eqb s "w" then S (2 * i) else (2 * i)%nat).
  Definition out := match C.load LoopProps.ExL.E ConfigProps.no_base [ConfigProps.file (PipeProps.stage1 "s" xs gs)] [] "" "" with
    | Some cs => match P.load_stages Pe cs [] with
                 | Some l => match P.prepare_run Pe l with Some (_, [o]) => o | _ => [] end
                 | None => [] end
    | None => [] end.
  Definition set := match C.load LoopProps.ExL.E ConfigProps.no_base [ConfigProps.file (PipeProps.stage1 "s" xs gs)] [] "" "" with
    | Some cs => match P.load_stages Pe cs [] with Some [(_, s)] => s | _ => T.TSet [] [] [] [] end
    | None => T.TSet [] [] [] [] end.
  Definition cs := map snd (labelled out).
  Definition trx (i : nat) : list string := match i with 0%nat | 1%nat => ["w"] | _ => ["r"; "w"] end.

  Definition db : LimitModel.conn := LimitModel.Conn None None (fun _ => false) (fun _ => None).
  Definition next (st : dst Z) (i : nat) : devent Z :=
    match d_busy st i with
    | Some _ => DCount i
    | None =>
      match nth_error (l_cls (d_loop st)) i with
      | Some k =>
        let inp more := match LoopProps.ExL.next k false with
                        | LStmt se => LStmt (SEnv (v_inputs se) (Some more) None None false LoopProps.ExL.ok) | x => x end in
        match limited k with
        | Some l => match d_lims st l with
                    | Some s => match L.l_ph s i with
                                | LimitModel.LGone => DLoop i (inp false) 2
                                | LimitModel.LCheck j => if Nat.eqb j (length (LimitModel.l_leaves s)) then DLoop i (inp true) 2 else DCheck i db
                                | _ => DCheck i db end
                    | None => DCount i end
        | None => DLoop i (inp true) 2
        end
      | None => DCount i
      end
    end.
  (** [n] steps, round robin *)
  Fixpoint drive (n t : nat) (st : dst Z) : list (devent Z) :=
    match n with
    | O => []
    | S n' => let e := next st (Nat.modulo t (length cs)) in
              match load_step st e with
              | Some (st', _) => e :: drive n' (S t) st'
              | None => drive n' (S t) st end
    end.
  Definition tr (lims : nat -> option (list L.leaf)) (n : nat) := drive n 0 (load_init lims cs).
End ExD.

Lemma rows_eachb {V} (f : nat * event V * Z -> bool) r evs :
  forallb (fun x => (negb (f x) || (0 <=? snd x) && (snd x <=? r))%Z%bool) evs = true -> rows_each f r evs.
Proof.
  intros H. rewrite forallb_forall in H. apply Forall_forall. intros x I F. specialize (H x I). rewrite F in H. cbn in H.
  apply andb_true_iff in H as [A B]. apply Z.leb_le in A, B. lia.
Qed.
Lemma ends {A B} (r : option (A * list B)) : option_map snd r <> None -> exists st, r = Some (st, match option_map snd r with Some evs => evs | None => [] end).
Proof. destruct r as [[st evs]|]; [exists st; reflexivity|cbn; congruence]. Qed.

(** Two of them find 7 rows and write: there are 11 rows in the end.  (C16_bound_tight: the bound itself is reached.) *)
Example C120_C121_example : exists c set evs p grp cl,
  let rows := of_trx (stmts_in set) ExD.trx "w" 0 in
  loaded LoopProps.ExL.E ConfigProps.no_base [ConfigProps.file (PipeProps.stage1 "s" ExD.xs ExD.gs)] [] "" "" ExD.Pe 0 c set ExD.out ExD.trx Z evs /\
  stmt_at set "w" 0 p /\ T.p_resultset p = false /\ T.p_limits p = [T.LRows 8 1] /\ limits_fit p /\
  rows_each rows 2 evs /\ length (labelled ExD.out) = 3%nat /\
  nth_error (labelled ExD.out) 2 = Some (0%nat, 1%nat, cl) /\ LoopProps.group_at c ExD.out 0 1 grp /\
  LoopProps.unset (C.g_iter grp) /\ LoopProps.unset (C.g_iter_c grp) /\ LoopProps.unset (C.g_iter_x grp) /\
  existsb (PipeProps.ddl_trx set) (LoopProps.trx_names c grp) = false /\
  reached_limit (events_of 2 (map fst evs)) /\ rows_where rows evs = 10%Z.
Proof.
  assert (OWN : forall set, map fst (T.t_stmts set) = ["r"; "w"] -> own_limits ExD.Pe set).
  { intros set M name j p name' j' p' (ss & A & _) (ss' & A' & _) EQ.
    assert (X : forall n ss, C.sget n (T.t_stmts set) = Some ss -> n = "r" \/ n = "w").
    { intros n ss0 H. assert (In n (map fst (T.t_stmts set))).
      { clear - H. induction (T.t_stmts set) as [|[k v] l IH]; [discriminate|]. cbn in H |- *. destruct (String.eqb_spec n k) as [->|]; [now left|right]. now apply IH. }
      rewrite M in H0. destruct H0 as [<-|[<-|[]]]; auto. }
    cbn in EQ. destruct (X _ _ A) as [->| ->], (X _ _ A') as [->| ->]; cbn in EQ; split; auto; lia. }
  eexists. exists ExD.set. do 4 eexists. cbv zeta. split.
  { split; [|split; [|split]].
    - do 4 eexists. split; [vm_compute; reflexivity|]. split; [repeat constructor|]. split; [vm_compute; reflexivity|].
      split; [vm_compute; reflexivity|]. split; vm_compute; reflexivity.
    - apply OWN. vm_compute. reflexivity.
    - intros i e g cl H. vm_compute in H. destruct i as [|[|[|i]]]; [injection H as <- <- _; eexists; split; reflexivity..|destruct i; discriminate].
    - exists (made_limits ExD.Pe ExD.set), (ExD.tr (made_limits ExD.Pe ExD.set) 100).
      match goal with |- exists st, _ /\ ?r = _ => assert (X : exists st, r = Some (st, match option_map snd r with Some evs => evs | None => [] end)) end.
      { apply ends. vm_compute. discriminate. }
      destruct X as (st & X). exists st. split; [apply limits_made, OWN; vm_compute; reflexivity|]. rewrite X. vm_compute. reflexivity. }
  split; [eexists; split; vm_compute; reflexivity|]. split; [reflexivity|]. split; [reflexivity|]. split; [repeat constructor|].
  split.
  { apply rows_eachb. vm_compute. reflexivity. }
  split; [reflexivity|]. split; [vm_compute; reflexivity|]. split; [vm_compute; reflexivity|].
  split; [now left|]. split; [now left|]. split; [now left|]. split; [vm_compute; reflexivity|].
  split; [apply LoopProps.reached_in; vm_compute; reflexivity|]. vm_compute. reflexivity.
Qed.
