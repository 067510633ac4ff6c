(** Properties of the data limits: C16-C20. *)
From Verif Require Import Prelude ListAux GenModel GenProofs LimitModel LimitSpec LimitProofs.
#[local] Open Scope string_scope.
#[local] Open Scope list_scope.
#[local] Open Scope Z_scope.

(* ------------------------------------------------------------------------------------ *)
(** * C16 *)

(** Whatever other limits the statement has, whichever way [k] clients interleave: a row limit
    [N] bounds the rows written by all clients together.  ([max offset] only matters if
    the limit was already reached at the start, when nothing is written.) *)
Theorem C16_rows_bound k r max offset ms d ls i tr s :
  stmt_limit ms = Some d -> Forall mod_fits ms -> leaves_of_data d = Some ls ->
  nth_error ms i = Some (ModRows max offset) ->
  0 <= r -> Z.of_N max - 1 + Z.of_nat k * r < 2^63 ->
  lrun k r (linit ls) tr s ->
  Z.of_N offset + l_written s <= Z.max (Z.of_N offset) (Z.of_N max - 1 + Z.of_nat k * r).
Proof.
  intros H F L I R B RUN. pose proof (stmt_limit_leaves _ _ H F) as L'. rewrite L' in L. inv L.
  pose proof (proj1 (Forall_forall _ _) F _ (nth_error_In _ _ I)) as FI. cbn in FI.
  eapply (rows_bound k r (Z.of_N max) (Z.of_N offset) i); eauto; [lia|].
  rewrite nth_error_map, I. reflexivity.
Qed.

(** the common case: no offset *)
Theorem C16_rows_bound_no_offset k r max ms d ls i tr s :
  stmt_limit ms = Some d -> Forall mod_fits ms -> leaves_of_data d = Some ls ->
  nth_error ms i = Some (ModRows max 0) ->
  0 <= r -> Z.of_N max - 1 + Z.of_nat k * r < 2^63 ->
  lrun k r (linit ls) tr s ->
  l_written s <= Z.of_N max - 1 + Z.of_nat k * r.
Proof.
  intros H F L I R B RUN. pose proof (C16_rows_bound _ _ _ _ _ _ _ _ _ _ H F L I R B RUN).
  pose proof (proj1 (Forall_forall _ _) F _ (nth_error_In _ _ I)) as FI. cbn in FI. lia.
Qed.

(** Once [max] rows are counted: a client which is not between its check and the execution never
    executes the statement again ... *)
Theorem C16_stops k r max offset ms d ls i tr s tr' s' t n :
  stmt_limit ms = Some d -> Forall mod_fits ms -> leaves_of_data d = Some ls ->
  nth_error ms i = Some (ModRows max offset) ->
  0 <= r -> Z.of_N max - 1 + Z.of_nat k * r < 2^63 ->
  lrun k r (linit ls) tr s ->
  nth_error (l_leaves s) i = Some (LRows (Rows (Z.of_N max) n)) -> Z.of_N max <= n ->
  (forall j, l_ph s t = LCheck j -> (j <= i)%nat) ->
  lrun k r s tr' s' -> Forall (fun e => ~ executes t e) tr'.
Proof.
  intros H F L I R B RUN NI GE PH RUN'. pose proof (stmt_limit_leaves _ _ H F) as L'. rewrite L' in L. inv L.
  pose proof (proj1 (Forall_forall _ _) F _ (nth_error_In _ _ I)) as FI. cbn in FI.
  assert (I0 : nth_error (map mod_leaf ms) i = Some (LRows (Rows (Z.of_N max) (Z.of_N offset))))
    by (rewrite nth_error_map, I; reflexivity).
  assert (O0 : 0 <= Z.of_N offset < 2^63) by lia.
  assert (INV : rinv k r (Z.of_N max) (Z.of_N offset) i (map mod_leaf ms) s)
    by (eapply rinv_run; eauto; eapply rinv_init; eauto).
  assert (BL : blocked (Z.of_N max) i t s) by (split; eauto).
  eapply blocked_run with (s := s) (s' := s'); eauto.
Qed.

(** ... and is stopped when it tries; before that it is let through. *)
Theorem C16_check s t j c max n :
  l_ph s t = LCheck j -> nth_error (l_leaves s) j = Some (LRows (Rows max n)) ->
  exists s', lstep s t (LMore c) = Some s' /\
    (max <= n -> l_ph s' t = LGone) /\ (n < max -> l_ph s' t = LCheck (S j)) /\ l_leaves s' = l_leaves s.
Proof.
  intros P N. unfold lstep. rewrite P, N. cbn [leaf_more].
  destruct (set_nth (l_leaves s) j (LRows (Rows max n))) as [ls|] eqn:E.
  - eexists. split; [reflexivity|]. cbn. rewrite natupd_same. unfold rows_more. cbn.
    split; [intros X; destruct (Z.ltb_spec n max); [lia|auto]|].
    split; [intros X; destruct (Z.ltb_spec n max); [auto|lia]|].
    apply list_ext. intros m. destruct (Nat.eq_dec m j) as [->|NE].
    + rewrite (set_nth_same _ _ _ _ E). auto.
    + now rewrite (set_nth_diff _ _ _ _ m E).
  - exfalso. clear P. revert j N E. generalize (l_leaves s). induction l as [|x l IH]; intros [|j] N E; cbn in *; try discriminate.
    destruct (set_nth l j _) eqn:E'; [discriminate|]. eauto.
Qed.

(** rows: 6, two clients, 5 rows each time: 15 rows are written. *)
Definition no_conn : conn := Conn None None (fun _ => false) (fun _ => None).
Fixpoint lexec (s : lstate) (tr : list (nat * laction)) : option lstate :=
  match tr with [] => Some s | (t, a) :: tr' => match lstep s t a with Some s' => lexec s' tr' | None => None end end.
Definition once (t : nat) (w : Z) : list (nat * laction) :=
  [(t, LStart); (t, LMore no_conn); (t, LExec (Some w)); (t, LAffected); (t, LAffected)].
Example C16_example :
  stmt_limit [ModRows 6 0] = Some (DRows (Some (Rows 6 0))) /\
  leaves_of_data (DRows (Some (Rows 6 0))) = Some [LRows (Rows 6 0)] /\
  option_map (fun s => (l_written s, l_leaves s, l_ph s 0%nat, l_ph s 1%nat))
    (lexec (linit [LRows (Rows 6 0)])
       (once 0 5 ++ [(0%nat, LStart); (0%nat, LMore no_conn)] ++ once 1 5 ++
        [(0%nat, LExec (Some 5)); (0%nat, LAffected); (1%nat, LStart); (1%nat, LMore no_conn)])) =
  Some (15, [LRows (Rows 6 15)], LCount 5 1, LGone).
Proof. vm_compute. auto. Qed.
Lemma lexec_run k r s tr : forall tr0 s0 s', lrun k r s0 tr0 s ->
  Forall (fun e => (fst e < k)%nat /\ forall w, snd e = LExec (Some w) -> 0 <= w <= r) tr ->
  lexec s tr = Some s' -> lrun k r s0 (tr0 ++ tr) s'.
Proof.
  revert s. induction tr as [|[t a] tr IH]; intros s tr0 s0 s' R F E; cbn in E.
  - inv E. now rewrite app_nil_r.
  - inv F. destruct (lstep s t a) as [s1|] eqn:E1; [|discriminate].
    replace (tr0 ++ (t, a) :: tr) with ((tr0 ++ [(t, a)]) ++ tr) by (rewrite <- app_assoc; reflexivity).
    eapply IH; eauto. econstructor; eauto; apply H1.
Qed.
(** so with two clients and executions of 5 rows the bound 6-1+2*5 is reached *)
Theorem C16_bound_tight : exists tr s, lrun 2 5 (linit [LRows (Rows 6 0)]) tr s /\ l_written s = 6 - 1 + Z.of_nat 2 * 5.
Proof.
  set (tr := once 0 5 ++ [(0%nat, LStart); (0%nat, LMore no_conn)] ++ once 1 5 ++ [(0%nat, LExec (Some 5))]).
  destruct (lexec (linit [LRows (Rows 6 0)]) tr) as [s|] eqn:E; [|vm_compute in E; discriminate].
  exists tr, s. split.
  - apply (lexec_run 2 5 (linit [LRows (Rows 6 0)]) tr [] _ s); [constructor| |exact E].
    unfold tr, once. repeat (constructor; [split; [cbn; lia|cbn; intros w W; inversion W; lia]|]). constructor.
  - assert (X : option_map l_written (lexec (linit [LRows (Rows 6 0)]) tr) = Some 15) by (vm_compute; reflexivity).
    rewrite E in X. cbn [option_map] in X. injection X as ->. reflexivity.
Qed.

(* ------------------------------------------------------------------------------------ *)
(** * C17 *)

(** The nil [*Rows] is not a nil [Data]: the statement never runs (the check panics, and the
    client stops with an error), also in combination with other limits. *)
Theorem C17_refuted : ~ (forall ms c d, Forall (fun m => exists off, m = ModRows 0 off) ms ->
  stmt_limit ms = Some d -> exists d', more c d = Some (d', true)).
Proof.
  intros H. destruct (H [ModRows 0 0] no_conn _ ltac:(repeat constructor; eauto) eq_refl) as (d' & D). discriminate.
Qed.

Theorem C17_never_executes ms off : In (ModRows 0 off) ms ->
  exists d, stmt_limit ms = Some d /\ forall c d', more c d <> Some (d', true).
Proof.
  intros H. destruct (fold_has_nil ms None) as (d & D1 & D2); eauto. exists d. split; auto.
  intros c. now apply has_nil_more.
Qed.

(** Only the absence of the modifier is no limit. *)
Theorem C17_no_modifier_no_limit_partial ms : stmt_limit ms = None <-> ms = [].
Proof.
  split; [|intros ->; reflexivity]. unfold stmt_limit. destruct ms as [|m ms]; auto. cbn [fold_left].
  assert (X : exists d, data_or None (mod_data m) = Some d) by (destruct m; cbn; eauto). destruct X as (d & ->).
  destruct (fold_or_some ms d) as (d' & ->). discriminate.
Qed.

Example C17_example : stmt_limit [ModTable "t" 1000; ModRows 0 0] = Some (DOr (DSize (new_size 1000 "" "t")) (DRows None)).
Proof. reflexivity. Qed.

(* ------------------------------------------------------------------------------------ *)
(** * C18 *)

Theorem C18_check_interval max tbl : let m := z_m (new_size max "" tbl) in
  ((max <= 2^30)%N -> m = 3%N) /\ ((100 * 2^30 <= max)%N -> m = 1000%N) /\
  ((2^30 < max)%N -> (max < 100 * 2^30)%N -> m = 5%N).
Proof.
  cbn. split; [|split]; intros;
    destruct (N.leb_spec 107374182400 max); destruct (N.leb_spec max 1073741824); lia.
Qed.

(** [cs1] are the calls (of all clients, in the order of the lock) after the table has reached the
    size, after any calls [cs0]: each client stopped costs at most [m-1] further executions. *)
Theorem C18_stops_soon max db tbl cs0 cs1 : let z := new_size max "" tbl in let m := z_m z in
  (forall c, In c (cs0 ++ cs1) -> mysql c /\ forall d, q_database c = Some d -> d = db) ->
  (forall c b, In c cs1 -> q_bytes c (table_query db tbl) = Some b -> (max <= b)%N) ->
  let res := skipn (length cs0) (size_calls z (cs0 ++ cs1)) in
  length res = length cs1 /\
  (N.of_nat (count_true res) <= (m - 1) * (N.of_nat (count_false res) + 1))%N.
Proof.
  intros z m H R res.
  destruct (size_calls_app max db tbl cs0 cs1 z) as (z' & A1 & A2 & A3 & A4).
  { apply Forall_forall. intros c C. destruct (H c) as [Q D]; [apply in_or_app; auto|]. split; auto. }
  { apply (ZFresh max db tbl 0). }
  { reflexivity. }
  unfold res. rewrite A3, <- A4, skipn_app, skipn_all, Nat.sub_diag. cbn [skipn app].
  split.
  - destruct (size_calls_app max db tbl cs1 [] z') as (_ & _ & _ & _ & L); auto.
    apply Forall_forall. intros c C. destruct (H c) as [Q D]; [apply in_or_app; auto|]. split; auto.
  - pose proof (left_calls max db tbl cs1 z' A1 A2) as X.
    pose proof (left_max max tbl (z_n z')) as Y. fold z in X, Y. fold m in X, Y.
    etransitivity; [apply X|].
    + apply Forall_forall. intros c C. destruct (H c) as [Q D]; [apply in_or_app; auto|].
      split; auto. split; auto. intros b. apply R. exact C.
    + lia.
Qed.

(** A client is stopped only if the table has the size, or a query failed: its own, or an earlier
    SELECT DATABASE(). *)
Theorem C18_not_early max db tbl cs i c :
  (forall c, In c cs -> mysql c /\ forall d, q_database c = Some d -> d = db) ->
  nth_error cs i = Some c -> nth_error (size_calls (new_size max "" tbl) cs) i = Some false ->
  (exists j cj, (j <= i)%nat /\ nth_error cs j = Some cj /\ q_database cj = None) \/
  q_exec c ("ANALYZE TABLE " ++ tbl)%string = false \/
  q_bytes c (table_query db tbl) = None \/
  exists b, q_bytes c (table_query db tbl) = Some b /\ (max <= b)%N.
Proof.
  intros H C R. destruct (size_false max db tbl cs (new_size max "" tbl) i c) as [[X|X]|X]; auto.
  - apply (ZFresh max db tbl 0).
  - apply Forall_forall. intros c' C'. destruct (H c' C') as [Q D]. split; auto.
  - discriminate.
Qed.

(** a table growing by 400 bytes with each execution, limit 1000: checks at calls 3, 6, ... *)
Definition table_conn (b : N) : conn :=
  Conn (Some [("t", "BASE TABLE")]) (Some "d") (fun s => negb ((s =? "") || (s =? "ANALYZE TABLE "))%string)
    (fun s => if (s =? table_query "d" "t")%string then Some b else None).
Example C18_example :
  size_calls (new_size 1000 "" "t") (map table_conn [0; 400; 800; 1200; 1600; 2000; 2000; 2000; 2000]%N) =
    [true; true; true; true; true; false; true; true; false] /\
  (forall b, mysql (table_conn b) /\ forall d, q_database (table_conn b) = Some d -> d = "d").
Proof. split; [vm_compute; reflexivity|]. intros b. split; [split; reflexivity|]. cbn. congruence. Qed.

(* ------------------------------------------------------------------------------------ *)
(** * C19 *)

(** What happens instead: rows.Close() before rows.Next() leaves ANALYZE TABLE without
    tables, so the [m]-th, [2m]-th, ... call stops a client whatever the size is. *)
Theorem C19_always_stops_partial max db cs i : db <> "" ->
  (N.of_nat (length cs) < 2^64)%N -> Forall mysql cs -> (forall c, In c cs -> q_tables c <> None) ->
  (i < length cs)%nat ->
  nth_error (size_calls (new_size max db "") cs) i = Some (negb ((N.of_nat i + 1) mod z_m (new_size max db "") =? 0)%N).
Proof. intros D. exact (db_all_calls max db D cs i). Qed.

(** A database of size 0 with a limit of 1000 bytes is stopped at the third call. *)
Theorem C19_refuted : ~ (forall max db cs i c, db <> "" ->
  Forall mysql cs -> (forall c, In c cs -> q_tables c <> None /\ q_database c <> None /\
    (forall t, t <> "" -> q_exec c ("ANALYZE TABLE " ++ t)%string = true) /\ forall s, q_bytes c s = Some 0%N) ->
  nth_error cs i = Some c -> (0 < max)%N ->
  nth_error (size_calls (new_size max db "") cs) i = Some true).
Proof.
  intros H. set (c := Conn (Some [("t", "BASE TABLE")]) (Some "d")
    (fun s => negb ((s =? "") || (s =? "ANALYZE TABLE "))%string) (fun _ => Some 0%N)).
  specialize (H 1000%N "d" [c; c; c] 2%nat c ltac:(discriminate)).
  assert (M : mysql c) by (split; reflexivity).
  assert (E : nth_error (size_calls (new_size 1000 "d" "") [c; c; c]) 2 = Some false) by (vm_compute; reflexivity).
  rewrite E in H. assert (Some false = Some true); [|discriminate]. apply H; auto; [|lia].
  intros c' C. assert (c' = c) as -> by (cbn in C; intuition). cbn.
  split; [discriminate|]. split; [discriminate|]. split; [|auto]. intros t T.
  destruct t; [congruence|reflexivity].
Qed.

(* ------------------------------------------------------------------------------------ *)
(** * C20 *)

(** Execution is allowed iff each configured limit (whose state is the leaf in the same place)
    allows it; they are asked in order, stopping at the first that refuses. *)
Theorem C20_more ms d ls c :
  stmt_limit ms = Some d -> Forall mod_fits ms ->
  leaves_of_data d = Some (map mod_leaf ms) /\
  forall d0, leaves_of_data d0 = Some ls ->
    exists d1 b, more c d0 = Some (d1, b) /\ leaves_of_data d1 = Some (fst (check_leaves c ls)) /\
      (b = true <-> Forall (fun l => snd (leaf_more c l) = true) ls).
Proof.
  intros H F. split; [now apply stmt_limit_leaves|]. intros d0 L. destruct (more_leaves c d0 ls L) as (d1 & A & B).
  exists d1, (snd (check_leaves c ls)). split; auto. split; auto. apply check_leaves_true.
Qed.

(** Every one counts the rows. *)
Theorem C20_affected n d ls : leaves_of_data d = Some ls ->
  exists d', affected n d = Some d' /\ leaves_of_data d' = Some (map (leaf_affected n) ls).
Proof. exact (affected_leaves n d ls). Qed.

(** and if all allow it, each has been asked, exactly as if it were the only one *)
Theorem C20_all_asked c ls : Forall (fun l => snd (leaf_more c l) = true) ls ->
  fst (check_leaves c ls) = map (fun l => fst (leaf_more c l)) ls.
Proof.
  intros F. induction F as [|l ls H F IH]; cbn; auto. destruct (leaf_more c l) as [l' b]. cbn in *. subst b.
  destruct (check_leaves c ls) as [ls' b]. cbn in *. now rewrite IH.
Qed.

Example C20_example : exists d d1 d2, stmt_limit [ModRows 10 0; ModTable "t" 1000; ModRows 5 3] = Some d /\
  more (table_conn 0) d = Some (d1, true) /\ affected 2 d1 = Some d2 /\
  option_map snd (more (table_conn 0) d2) = Some false /\
  option_map (map (fun l => match l with LRows r => r_n r | LSize z => Z.of_N (z_n z) end)) (leaves_of_data d2) = Some [2; 1; 5].
Proof. do 3 eexists. split; [reflexivity|]. split; [reflexivity|]. split; [reflexivity|]. vm_compute. auto. Qed.

Print Assumptions C16_rows_bound.
Print Assumptions C16_rows_bound_no_offset.
Print Assumptions C16_stops.
Print Assumptions C16_check.
Print Assumptions C16_bound_tight.
Print Assumptions C17_refuted.
Print Assumptions C17_never_executes.
Print Assumptions C17_no_modifier_no_limit_partial.
Print Assumptions C18_check_interval.
Print Assumptions C18_stops_soon.
Print Assumptions C18_not_early.
Print Assumptions C19_always_stops_partial.
Print Assumptions C19_refuted.
Print Assumptions C20_more.
Print Assumptions C20_affected.
Print Assumptions C20_all_asked.
