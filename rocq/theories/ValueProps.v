(** C99 and C100: the values that a client's statements are executed with. *)
From Verif Require Import Prelude ListAux ScopeModel ScopeSpec StmtModel WorkloadModel WorkloadSpec ClientModel ClientSpec
  ValueModel ValueSpec ValueProofs ValueCallProofs ValueColumnProofs.
#[local] Open Scope string_scope.
#[local] Open Scope list_scope.

Module ExV.
  (** Two kinds of generators: [inl n] returns n, n+1, ...; [inr v] is a column that holds [v]. *)
  Definition G : Type := (Z + Z)%type.
  Definition gvalues (g : G) (rc : runcount) : G * list Z :=
    match g with inl n => (inl (n + 1)%Z, [n]) | inr v => (inr v, [v]) end.
  Definition held (g : G) : list Z := match g with inl n => [n] | inr v => [v] end.

  Definition sel := Stmt "t" "SELECT c FROM x WHERE id=%d" true false 0 false false false false 0 ["@id"] ["@c"] "" None [false].
  Definition upd := Stmt "t" "UPDATE x SET n=%d WHERE id=%d AND c=%d OR c=%d" false false 0 false false true false 0 ["@n"; "@id"; "@c"; "@c"] [] "" None [false; false; false; false].
  Definition idle := Stmt "t" "" false false 0 false false false false 100 [] [] "" None [].
  Definition del := Stmt "t" "DELETE FROM x WHERE c=%d AND id=%d" false false 0 false false true false 0 ["@c"; "@id"] [] "" None [false; false].
  Definition ins := Stmt "u" "INSERT INTO y VALUES (%d, %d, %d)" false false 0 false false true false 0 ["@k"; "@it"; "@it"] [] "" None [false; false; false].

  (** generators: 1 is @id (trx scope), 2 is @c (saved column, trx scope), 3 is @n (statement scope), 4 is @k
      (client scope), 5 is @it (iter scope); 6 is not owned by the client *)
  Definition own (p : nat) : bool := (p <? 6)%nat.
  Definition gscope (p : nat) : scope := match p with 1 | 2 => STrx | 3 => SStatement | 4 => SClient | 5 => SIter | _ => SStage end%nat.
  Definition gen0 (p : nat) : G := match p with 2%nat => inr 0%Z | 3%nat => inl 100%Z | _ => inl 1%Z end.
  Definition c := Client (RL 1 1 1 2 0 0) "db" 0 0 None 0 None None None
    [sel; upd; idle; del; ins]
    [SData [(1, false)] [Some 2] None true false; SData [(3, false); (1, false); (2, false); (2, false)] [] None false false;
     SData [] [] None false false; SData [(2, false); (1, false)] [] None false true; SData [(4, false); (5, false); (5, false)] [] None true true]%nat
    [Some "t"; Some "u"].
  Definition lens := [4; 1]%nat.
  Lemma has : has_trx c lens.
  Proof. split; [repeat constructor|]. repeat split. Qed.
  Lemma start : trx_start_with_query c lens.
  Proof. intros [|[|[|[|[|i]]]]] s E F; try (injection E as <-; reflexivity); try discriminate F. destruct i; discriminate E. Qed.

  Definition ok : cenv := CEnv false None true false None (fun _ => None).
  Definition se (e : option err) : senv Z := SEnv [] (Some true) e None false ok.
  Definition none : nat -> option G := fun _ => None.
  Definition row (v : Z) : nat -> option G := fun _ => Some (inr v).
  Definition q (e : option err) := (IStmt (se e), none).
  Definition rd (v : Z) := (IStmt (se None), row v).
  (** one iteration saving 77; one in which DELETE fails, saving 78; one in which SELECT finds no row *)
  Definition run : list (cinput Z * (nat -> option G)) :=
    [(IConnect ok, none); (IGo, none); rd 77; q None; q None; q None; q None;
     (IGo, none); rd 78; q None; q None; q (Some (Err 1205 false false));
     (IGo, none); q None; q None; q None; q None; q None; (IStop, none)].
  Definition out := vrun gvalues own gscope gen0 c run.
  Definition res : Type := option (cst Z * cpc * world (G := G) (V := Z) * list (event Z) * list (vlog G Z)).
  Definition evs_of (o : res) : list (event Z) := match o with Some (_, _, _, e, _) => e | None => [] end.
  Definition log_of (o : res) : list (vlog G Z) := match o with Some (_, _, _, _, l) => l | None => [] end.
  Definition evs := evs_of out.
  Definition log := log_of out.
  Lemma some_of (o : res) : o <> None -> exists st pc w, o = Some (st, pc, w, evs_of o, log_of o).
  Proof. destruct o as [[[[[st pc] w] e] l]|]; [|congruence]. intros _. exists st, pc, w. reflexivity. Qed.
  Lemma out_some : exists st pc w, vrun gvalues own gscope gen0 c run = Some (st, pc, w, evs, log).
  Proof. apply (some_of (vrun gvalues own gscope gen0 c run)). vm_compute. discriminate. Qed.

  Definition log' := Eval vm_compute in log.
  Definition execs' := Eval vm_compute in execs evs.
  Lemma log_eq : log = log'.
  Proof. vm_cast_no_check (eq_refl log'). Qed.
  Lemma execs_eq : execs evs = execs'.
  Proof. vm_cast_no_check (eq_refl execs'). Qed.

  Lemma never : never_repeats gvalues (inl 1%Z : G).
  Proof.
    intros cs. enough (H : forall n, NoDup (snd (gen_run gvalues (inl n : G) cs)) /\ forall v, In v (snd (gen_run gvalues (inl n : G) cs)) -> exists m, v = [m] /\ (n <= m)%Z) by apply H.
    induction cs as [|x cs IH]; intros n; cbn.
    - split; [constructor|intros v []].
    - destruct (IH (n + 1)%Z) as [A B]. destruct (gen_run gvalues (inl (n + 1)%Z) cs) as [g vs]. cbn in *. split.
      + constructor; [|exact A]. intros I. apply B in I as (m & [= <-] & L). lia.
      + intros v [<-|I]; [exists n; split; [reflexivity|lia]|]. apply B in I as (m & -> & L). exists m. split; [reflexivity|lia].
  Qed.
  Lemma no_save p : p <> 2%nat -> forall i, ~ saves_at c i p.
  Proof.
    intros N i (s & d & S & D & I). destruct i as [|[|[|[|[|i]]]]]; cbn in S, D; try discriminate S; try (destruct i; discriminate S);
      injection S as <-; injection D as <-; cbn in I; try destruct I as [I|[]]; congruence.
  Qed.
  Lemma no_explicit p : forall i, ~ inputs_at c i p true.
  Proof.
    intros i (d & D & I). destruct i as [|[|[|[|[|i]]]]]; cbn in D; try (destruct i; discriminate D); injection D as <-; cbn in I; intuition congruence.
  Qed.
  Lemma order : forall i j ex, inputs_at c i 2 ex -> saves_at c j 2 -> (j < i)%nat.
  Proof.
    intros i j ex (d & D & I) (s & d' & S & D' & I').
    assert (J : j = 0%nat).
    { destruct j as [|[|[|[|[|j]]]]]; cbn in S, D'; try reflexivity; try (destruct j; discriminate S);
      injection S as <-; injection D' as <-; cbn in I'; discriminate I'. }
    subst j. destruct i; [|lia]. cbn in D. injection D as <-. cbn in I. intuition congruence.
  Qed.
End ExV.

(** * C99 *)

(** The values are those of the executed statements: the calls [groups l] are, in order, those made for the
    executions [execs evs]; at most the last one has no execution (the client stopped between). *)
Theorem C99_executed {G V} (gvalues : G -> runcount -> G * list V) own gscope gen0 c inps st pc w evs l :
  vrun gvalues own gscope gen0 c inps = Some (st, pc, w, evs, l) ->
  exists rest, Forall2 (made_for c) (execs evs) (firstn (length (execs evs)) (groups l)) /\
    groups l = firstn (length (execs evs)) (groups l) ++ rest /\ (pc <> PcDone -> rest = []) /\ (length rest <= 1)%nat.
Proof. apply groups_match. Qed.
Print Assumptions C99_executed.

(** The generator is called exactly once for each scope instance in which the key is used (and for each explicit
    call), and each use gets what the newest call returned. *)
Theorem C99_generated_partial {G V} (gvalues : G -> runcount -> G * list V) own gscope gen0 c lens inps st pc w evs l p :
  has_trx c lens -> trx_start_with_query c lens -> vrun gvalues own gscope gen0 c inps = Some (st, pc, w, evs, l) ->
  own p = true -> single_client (gscope p) -> (forall i, ~ saves_at c i p) ->
  let us := uses_in p (groups l) in
  let '(g', vs) := gen_run gvalues (gen0 p) (calling (scope_counter (gscope p)) [] us) in
  sg_g _ _ (w p) = g' /\ values_in p (groups l) = returns (scope_counter (gscope p)) [] [] us vs.
Proof. intros T S H. exact (generated gvalues own gscope gen0 c lens T S inps st pc w evs l p H). Qed.
Print Assumptions C99_generated_partial.

(** Two executions in one scope instance get the same value of a key. *)
Theorem C99_same_partial {G V} (gvalues : G -> runcount -> G * list V) own gscope gen0 c lens inps st pc w evs l
  pre e1 mid e2 post i1 rc1 us1 i2 rc2 us2 j1 j2 u1 u2 :
  has_trx c lens -> trx_start_with_query c lens -> c_stmts c <> [] ->
  vrun gvalues own gscope gen0 c inps = Some (st, pc, w, evs, l) -> execs evs = pre ++ e1 :: mid ++ e2 :: post ->
  nth_error (groups l) (length pre) = Some (i1, rc1, us1) ->
  nth_error (groups l) (length pre + S (length mid)) = Some (i2, rc2, us2) ->
  nth_error us1 j1 = Some u1 -> nth_error us2 j2 = Some u2 -> u_ptr u2 = u_ptr u1 ->
  own (u_ptr u1) = true -> single_client (gscope (u_ptr u1)) -> (forall i, ~ saves_at c i (u_ptr u1)) ->
  (forall i, ~ inputs_at c i (u_ptr u1) true) ->
  same_scope (gscope (u_ptr u1)) lens e1 mid e2 -> u_vals u1 = u_vals u2.
Proof.
  intros T S N H E G1 G2 J1 J2 P O SC NS NX SM.
  exact (proj1 (two_uses gvalues own gscope gen0 c lens T S N inps st pc w evs l _ pre e1 mid e2 post i1 rc1 us1 i2 rc2 us2 j1 j2 u1 u2 H E G1 G2 J1 J2 eq_refl P O SC NS) SM NX).
Qed.
Print Assumptions C99_same_partial.

(** Two uses of a key in one statement get the same value. *)
Theorem C99_statement_partial {G V} (gvalues : G -> runcount -> G * list V) own gscope gen0 c lens inps st pc w evs l n i rc us j1 j2 u1 u2 :
  has_trx c lens -> trx_start_with_query c lens ->
  vrun gvalues own gscope gen0 c inps = Some (st, pc, w, evs, l) -> nth_error (groups l) n = Some (i, rc, us) ->
  nth_error us j1 = Some u1 -> nth_error us j2 = Some u2 -> u_ptr u2 = u_ptr u1 ->
  own (u_ptr u1) = true -> single_client (gscope (u_ptr u1)) -> (forall i, ~ saves_at c i (u_ptr u1)) ->
  (forall i, ~ inputs_at c i (u_ptr u1) true) -> u_vals u1 = u_vals u2.
Proof.
  intros T S H E J1 J2 P. 
  exact (one_statement gvalues own gscope gen0 c lens T S inps st pc w evs l _ n i rc us j1 j2 u1 u2 H E J1 J2 eq_refl P).
Qed.
Print Assumptions C99_statement_partial.

(** Two executions in different scope instances get different values, if the generator never repeats itself. *)
Theorem C99_new_partial {G V} (gvalues : G -> runcount -> G * list V) own gscope gen0 c lens inps st pc w evs l
  pre e1 mid e2 post i1 rc1 us1 i2 rc2 us2 j1 j2 u1 u2 :
  has_trx c lens -> trx_start_with_query c lens -> c_stmts c <> [] ->
  vrun gvalues own gscope gen0 c inps = Some (st, pc, w, evs, l) -> execs evs = pre ++ e1 :: mid ++ e2 :: post ->
  nth_error (groups l) (length pre) = Some (i1, rc1, us1) ->
  nth_error (groups l) (length pre + S (length mid)) = Some (i2, rc2, us2) ->
  nth_error us1 j1 = Some u1 -> nth_error us2 j2 = Some u2 -> u_ptr u2 = u_ptr u1 ->
  own (u_ptr u1) = true -> single_client (gscope (u_ptr u1)) -> (forall i, ~ saves_at c i (u_ptr u1)) ->
  never_repeats gvalues (gen0 (u_ptr u1)) ->
  ~ same_scope (gscope (u_ptr u1)) lens e1 mid e2 -> u_vals u1 <> u_vals u2.
Proof.
  intros T S N H E G1 G2 J1 J2 P O SC NS NR SM.
  exact (proj2 (two_uses gvalues own gscope gen0 c lens T S N inps st pc w evs l _ pre e1 mid e2 post i1 rc1 us1 i2 rc2 us2 j1 j2 u1 u2 H E G1 G2 J1 J2 eq_refl P O SC NS) SM NR).
Qed.
Print Assumptions C99_new_partial.

Example C99_example :
  has_trx ExV.c ExV.lens /\ trx_start_with_query ExV.c ExV.lens /\ ExV.out <> None /\
  (forall i, ~ saves_at ExV.c i 1) /\ (forall i, ~ inputs_at ExV.c i 1 true) /\ never_repeats ExV.gvalues (ExV.gen0 1) /\
  map ex_stmt (execs ExV.evs) = [0; 1; 3; 4; 0; 1; 3; 0; 1; 3; 4]%nat /\
  map ex_vals (execs ExV.evs) =
    [[Some 1]; [Some 100; Some 1; Some 77; Some 77]; [Some 77; Some 1]; [Some 1; Some 1; Some 1];
     [Some 2]; [Some 101; Some 2; Some 78; Some 78]; [Some 78; Some 2];
     [Some 3]; [Some 102; Some 3; Some 78; Some 78]; [Some 78; Some 3]; [Some 2; Some 2; Some 2]]%Z /\
  map (fun g => fst (fst g)) (groups ExV.log) = [0; 1; 3; 4; 0; 1; 3; 0; 1; 3; 4]%nat /\
  values_in 1 (groups ExV.log) = [[1]; [1]; [1]; [2]; [2]; [2]; [3]; [3]; [3]]%Z.
Proof.
  split; [apply ExV.has|]. split; [apply ExV.start|]. split; [vm_compute; discriminate|]. split; [apply ExV.no_save; lia|].
  split; [apply ExV.no_explicit|]. split; [apply ExV.never|]. vm_compute. auto.
Qed.
Example C99_same_example : exists pre e1 mid e2 post,
  execs ExV.evs = pre ++ e1 :: mid ++ e2 :: post /\ length pre = 4%nat /\ length mid = 1%nat /\ same_scope (ExV.gscope 1) ExV.lens e1 mid e2 /\
  exists rc1 us1 rc2 us2 u1 u2, nth_error (groups ExV.log) 4 = Some (0%nat, rc1, us1) /\ nth_error (groups ExV.log) 6 = Some (3%nat, rc2, us2) /\
    nth_error us1 0 = Some u1 /\ nth_error us2 1 = Some u2 /\ u_ptr u1 = 1%nat /\ u_ptr u2 = 1%nat /\ u_vals u1 = [2]%Z.
Proof.
  rewrite ExV.execs_eq, ExV.log_eq. exists (firstn 4 ExV.execs'). eexists. exists (firstn 1 (skipn 5 ExV.execs')). eexists. exists (skipn 7 ExV.execs').
  cbn [firstn skipn ExV.execs']. split; [reflexivity|]. split; [reflexivity|]. split; [reflexivity|].
  split; [|do 6 eexists; vm_compute; repeat split; reflexivity].
  - vm_compute. repeat constructor.
Qed.
Example C99_new_example : exists pre e1 mid e2 post,
  execs ExV.evs = pre ++ e1 :: mid ++ e2 :: post /\ length pre = 2%nat /\ length mid = 1%nat /\ ~ same_scope (ExV.gscope 1) ExV.lens e1 mid e2 /\
  exists rc1 us1 rc2 us2 u1 u2, nth_error (groups ExV.log) 2 = Some (3%nat, rc1, us1) /\ nth_error (groups ExV.log) 4 = Some (0%nat, rc2, us2) /\
    nth_error us1 1 = Some u1 /\ nth_error us2 0 = Some u2 /\ u_ptr u1 = 1%nat /\ u_ptr u2 = 1%nat /\ u_vals u1 = [1]%Z /\ u_vals u2 = [2]%Z.
Proof.
  rewrite ExV.execs_eq, ExV.log_eq. exists (firstn 2 ExV.execs'). eexists. exists (firstn 1 (skipn 3 ExV.execs')). eexists. exists (skipn 5 ExV.execs').
  cbn [firstn skipn ExV.execs']. split; [reflexivity|]. split; [reflexivity|]. split; [reflexivity|].
  split; [|do 6 eexists; vm_compute; repeat split; reflexivity].
  - vm_compute. intros X. inversion X; subst. match goal with H : Forall _ [_] |- _ => inversion H; subst end. discriminate.
Qed.

(** A key of client scope has two values for one client on one connection: a failed statement that finch recovers
    from counts as a new connection also when it did not reconnect (C60). *)
Theorem C99_refuted_client : exists (c : client) lens inps st pc w evs l,
  has_trx c lens /\ trx_start_with_query c lens /\
  vrun ExV.gvalues ExV.own ExV.gscope ExV.gen0 c inps = Some (st, pc, w, evs, l) /\
  ExV.gscope 4 = SClient /\ List.length (filter (fun e => match e with EvConnect _ => true | _ => false end) evs) = 1%nat /\
  values_in 4 (groups l) = [[1]; [2]]%Z.
Proof.
  destruct ExV.out_some as (st & pc & w & E). exists ExV.c, ExV.lens, ExV.run, st, pc, w, ExV.evs, ExV.log.
  split; [apply ExV.has|]. split; [apply ExV.start|]. split; [exact E|]. split; [reflexivity|]. vm_compute. auto.
Qed.
Print Assumptions C99_refuted_client.

(** * C100 *)

(** [held] is what a column generator holds.  If in the trx every statement that uses the column comes after those
    that save it, each use gets the value that was saved last. *)
Theorem C100_column_partial {G V} (gvalues : G -> runcount -> G * list V) own gscope gen0 c held p lens inps st pc w evs a i rc us b u :
  has_trx c lens -> trx_start_with_query c lens -> own p = true -> gscope p = STrx ->
  is_column gvalues held (gen0 p) -> (forall i j ex, inputs_at c i p ex -> saves_at c j p -> (j < i)%nat) ->
  vrun gvalues own gscope gen0 c inps = Some (st, pc, w, evs, a ++ LUses i rc us :: b) ->
  (forall j g, In (LSave j p g) (a ++ LUses i rc us :: b) -> is_column gvalues held g) ->
  In u us -> u_ptr u = p -> u_vals u = held (last_saved p a (gen0 p)).
Proof. intros T S O SC C OR H SV. exact (column_used gvalues own gscope gen0 c held p lens T S O SC C OR inps st pc w evs a i rc us b u H SV). Qed.
Print Assumptions C100_column_partial.

Example C100_example : ExV.gscope 2 = STrx /\ is_column ExV.gvalues ExV.held (ExV.gen0 2) /\
  (forall i j ex, inputs_at ExV.c i 2 ex -> saves_at ExV.c j 2 -> (j < i)%nat) /\
  (forall j g, In (LSave j 2 g) ExV.log -> is_column ExV.gvalues ExV.held g) /\
  exists a rc us b, ExV.log = a ++ LUses 3 rc us :: b /\ map u_ptr us = [2; 1]%nat /\ map u_vals us = [[78]; [2]]%Z /\ last_saved 2 a (ExV.gen0 2) = inr 78%Z.
Proof.
  split; [reflexivity|]. split; [intros rc; reflexivity|]. split; [apply ExV.order|]. split.
  - intros j g I. rewrite ExV.log_eq in I. cbn [In ExV.log'] in I. repeat (destruct I as [I|I]; [try discriminate I; injection I as <- <-; intros rc; reflexivity|]). destruct I.
  - rewrite ExV.log_eq. exists (firstn 8 ExV.log'). cbn [firstn ExV.log']. do 3 eexists. split; [reflexivity|]. vm_compute. auto.
Qed.

(** When a statement that is not an idle time is executed: a SELECT scans its row into the generators of its saved
    columns, any other statement its last insert id into the generator of its save-insert-id; nothing else is
    scanned into. *)
Theorem C100_scans {G V} (gvalues : G -> runcount -> G * list V) own gscope gen0 c inps i st w evs l se sv st' pc' w' evs' l' s d :
  vrun gvalues own gscope gen0 c inps = Some (st, PcStmt i, w, evs, l) ->
  vrun gvalues own gscope gen0 c (inps ++ [(IStmt se, sv)]) = Some (st', pc', w', evs', l') ->
  nth_error (c_stmts c) i = Some s -> nth_error (c_data c) i = Some d -> st_idle s = 0%Z ->
  exists rc us scans, l' = l ++ LUses i rc us :: scans /\
    forall x, In x scans <-> exists p g, x = LSave i p g /\ sv p = Some g /\
      (st_resultset s = true /\ In (Some p) (d_outputs d) \/ st_resultset s = false /\ d_insertId d = Some p).
Proof.
  intros A B ES ED EI.
  destruct (scans_of_step gvalues own gscope gen0 c inps i st w evs l se sv st' pc' w' evs' l' s d A B ES ED) as (rc & us & scans & E & X).
  { unfold is_idle. now rewrite EI. }
  exists rc, us, scans. split; [exact E|]. intros x. rewrite X. unfold scans_into.
  split; intros (p & g & -> & Y & Z); exists p, g; (split; [reflexivity|]); destruct (st_resultset s); intuition discriminate.
Qed.
Print Assumptions C100_scans.

(** An INSERT that saves its insert id, and the SELECT of the other examples. *)
Module ExI.
  Definition ins := Stmt "t" "INSERT INTO x VALUES (%d)" false false 0 false false true false 0 ["@id"] [] "@new" None [false].
  Definition c := Client (RL 1 1 1 2 0 0) "db" 0 0 None 0 None None None [ins; ExV.sel]
    [SData [(1, false)] [] (Some 2) true false; SData [(1, false)] [Some 3; None] None false true]%nat [Some "t"].
  Definition run : list (cinput Z * (nat -> option ExV.G)) := [(IConnect ExV.ok, ExV.none); (IGo, ExV.none)].
  Definition log_of (o : ExV.res) : option (cpc * list (vlog ExV.G Z)) := match o with Some (_, pc, _, _, l) => Some (pc, l) | None => None end.
End ExI.
Example C100_scans_example :
  let r := vrun ExV.gvalues ExV.own ExV.gscope ExV.gen0 ExI.c in
  option_map fst (ExI.log_of (r ExI.run)) = Some (PcStmt 0) /\
  option_map (fun x => filter (fun e => match e with LSave _ _ _ => true | _ => false end) (snd x))
    (ExI.log_of (r (ExI.run ++ [ExV.rd 5; ExV.rd 6]))) = Some [LSave 0 2 (inr 5%Z); LSave 1 3 (inr 6%Z)].
Proof. vm_compute. auto. Qed.

(** A column that a statement both uses and saves, as in a walk over a table: the next statement of the trx gets
    the value from before it was saved. *)
Module ExW.
  Definition walk := Stmt "t" "SELECT id FROM x WHERE id>%d LIMIT 1" true false 0 false false false false 0 ["@c"] ["@c"] "" None [false].
  Definition use := Stmt "t" "UPDATE x SET n=1 WHERE id=%d" false false 0 false false true false 0 ["@c"] [] "" None [false].
  Definition c := Client (RL 1 1 1 2 0 0) "db" 0 0 None 0 None None None [walk; use]
    [SData [(2, false)] [Some 2] None true false; SData [(2, false)] [] None false true]%nat [Some "t"].
  Definition lens := [2]%nat.
  Lemma has : has_trx c lens.
  Proof. split; [repeat constructor|]. repeat split. Qed.
  Lemma start : trx_start_with_query c lens.
  Proof. intros [|[|i]] s E F; try (injection E as <-; reflexivity); try discriminate F. destruct i; discriminate E. Qed.
  Definition run : list (cinput Z * (nat -> option ExV.G)) :=
    [(IConnect ExV.ok, ExV.none); (IGo, ExV.none); ExV.rd 5; ExV.q None; (IGo, ExV.none); ExV.rd 9; ExV.q None].
End ExW.

Theorem C100_refuted : exists (c : client) lens inps st pc w evs a i rc us b u,
  has_trx c lens /\ trx_start_with_query c lens /\ ExV.own 2 = true /\ ExV.gscope 2 = STrx /\
  is_column ExV.gvalues ExV.held (ExV.gen0 2) /\
  vrun ExV.gvalues ExV.own ExV.gscope ExV.gen0 c inps = Some (st, pc, w, evs, a ++ LUses i rc us :: b) /\
  (forall j g, In (LSave j 2 g) (a ++ LUses i rc us :: b) -> is_column ExV.gvalues ExV.held g) /\
  In u us /\ u_ptr u = 2%nat /\ i = 1%nat /\ last_saved 2 a (ExV.gen0 2) = inr 9%Z /\ u_vals u = [5]%Z.
Proof.
  destruct (ExV.some_of (vrun ExV.gvalues ExV.own ExV.gscope ExV.gen0 ExW.c ExW.run)) as (st & pc & w & E); [vm_compute; discriminate|].
  assert (L : ExV.log_of (vrun ExV.gvalues ExV.own ExV.gscope ExV.gen0 ExW.c ExW.run) =
    [LUses 0 (RC 1 1 1 1 2 1 1 1) [SUse 2 false [0%Z]]; LSave 0 2 (inr 5%Z); LUses 1 (RC 2 1 1 1 2 1 1 1) [SUse 2 false [0%Z]];
     LUses 0 (RC 3 2 2 1 2 1 1 1) [SUse 2 false [5%Z]]; LSave 0 2 (inr 9%Z)] ++ LUses 1 (RC 4 2 2 1 2 1 1 1) [SUse 2 false [5%Z]] :: [])
    by (vm_compute; reflexivity).
  rewrite L in E. exists ExW.c, ExW.lens, ExW.run, st, pc, w. do 6 eexists. exists (SUse 2 false [5%Z]).
  split; [apply ExW.has|]. split; [apply ExW.start|]. split; [reflexivity|]. split; [reflexivity|]. split; [intros rc; reflexivity|]. split; [exact E|].
  split; [|cbn; auto 10].
  intros j g I. cbn in I. repeat (destruct I as [I|I]; [try discriminate I; injection I as <- <-; intros rc; reflexivity|]). destruct I.
Qed.
Print Assumptions C100_refuted.

(** When the SELECT of a trx finds no row, the statements after it get the value saved in an earlier trx (the
    comment at client.go 294-297 expects nil). *)
Theorem C100_refuted_norow : exists (c : client) lens inps st pc w evs l,
  has_trx c lens /\ trx_start_with_query c lens /\ ExV.gscope 2 = STrx /\ is_column ExV.gvalues ExV.held (ExV.gen0 2) /\
  (forall i j ex, inputs_at c i 2 ex -> saves_at c j 2 -> (j < i)%nat) /\
  vrun ExV.gvalues ExV.own ExV.gscope ExV.gen0 c inps = Some (st, pc, w, evs, l) /\
  exists a i1 rc1 us1 i2 rc2 us2 u b, l = a ++ LUses i1 rc1 us1 :: LUses i2 rc2 us2 :: b /\
    d_begin (nth i1 (c_data c) sdata_zero) = true /\ saves_at c i1 2 /\ In u us2 /\ u_ptr u = 2%nat /\ u_vals u = [78]%Z /\
    last_saved 2 a (ExV.gen0 2) = inr 78%Z.
Proof.
  destruct ExV.out_some as (st & pc & w & E). exists ExV.c, ExV.lens, ExV.run, st, pc, w, ExV.evs, ExV.log.
  split; [apply ExV.has|]. split; [apply ExV.start|]. split; [reflexivity|]. split; [intros rc; reflexivity|].
  split; [apply ExV.order|]. split; [exact E|]. clear E.
  rewrite ExV.log_eq. exists (firstn 9 ExV.log'). cbn [firstn ExV.log']. do 6 eexists. eexists (SUse 2 false [78%Z]), _.
  split; [reflexivity|]. split; [reflexivity|]. split; [exists ExV.sel; eexists; repeat split; cbn; auto|]. cbn. auto 10.
Qed.
Print Assumptions C100_refuted_norow.
