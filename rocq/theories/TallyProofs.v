(** Counting the queries of a workload. *)
From Verif Require Import Prelude ListAux ScopeModel StmtModel WorkloadModel WorkloadSpec ClientModel ClientSpec StatsModel StatsSpec CollectorModel CollectorSpec.
From Verif Require Import TotalModel TotalSpec IterSpec LoopModel LoopSpec LoopCountProofs WholeModel WholeSpec WholeProofs TallySpec.
From Verif Require ClientTrxProofs.
#[local] Open Scope list_scope.

Lemma cntN_ext {A} (f g : A -> bool) l : (forall x, In x l -> f x = g x) -> cntN f l = cntN g l.
Proof.
  unfold cntN. intros H. f_equal. f_equal. induction l as [|x l IH]; [reflexivity|]. cbn. rewrite (H x (or_introl eq_refl)), IH by (intros; apply H; now right). reflexivity.
Qed.
Lemma cntN_map {A B} (f : B -> bool) (g : A -> B) l : cntN f (map g l) = cntN (fun x => f (g x)) l.
Proof. unfold cntN. induction l as [|x l IH]; [reflexivity|]. cbn. destruct (f (g x)); cbn in *; lia. Qed.
Lemma cntN_filter {A} (f g : A -> bool) l : cntN f (filter g l) = cntN (fun x => (g x && f x)%bool) l.
Proof. unfold cntN. induction l as [|x l IH]; [reflexivity|]. cbn. destruct (g x); cbn; [destruct (f x); cbn; lia|exact IH]. Qed.
Lemma cntN_false {A} (f : A -> bool) l : (forall x, In x l -> f x = false) -> cntN f l = 0%N.
Proof. intros H. rewrite (cntN_ext f (fun _ => false)) by exact H. unfold cntN. induction l; [reflexivity|]. apply IHl. intros; apply H; now right. Qed.
Lemma cntN_repeat {A} (f : A -> bool) l n : cntN f (concat (repeat l n)) = (N.of_nat n * cntN f l)%N.
Proof. induction n as [|n IH]; [reflexivity|]. cbn [repeat concat]. rewrite cntN_app, IH. lia. Qed.
Lemma seq_from a n : seq a n = map (fun i => (a + i)%nat) (seq 0 n).
Proof.
  revert a. induction n as [|n IH]; intros a; [reflexivity|]. cbn. f_equal; [lia|]. rewrite (IH (S a)), (IH 1%nat), map_map. apply map_ext. intros; lia.
Qed.
Lemma cntN_nth {A} (h : A -> bool) (l : list A) :
  cntN (fun i => match nth_error l i with Some s => h s | None => false end) (seq 0 (length l)) = cntN h l.
Proof.
  induction l as [|x l IH]; [reflexivity|]. cbn [length]. change (seq 0 (S (length l))) with ([0%nat] ++ seq 1 (length l)).
  rewrite cntN_app, seq_from, cntN_map. cbn [Nat.add nth_error]. rewrite IH. change (x :: l) with ([x] ++ l) at 2. rewrite cntN_app. f_equal. unfold cntN. cbn. destruct (h x); reflexivity.
Qed.

Section Blocks.
  Variable f : string -> list stmt.
  Variables (on : bool) (sel : string -> bool) (q : qclass).

  Definition slot (names : list string) (i : nat) : bool :=
    match nth_error (concat (map f names)) i with
    | Some s => (negb (is_idle s) &&
        match nth_error (map (fun t => if on then Some t else None) names) (block_index (map (fun t => length (f t)) names) i) with
        | Some (Some x) => sel x && in_class q s | _ => false end)%bool
    | None => false
    end.
  Lemma cnt_blocks names : cntN (slot names) (seq 0 (length (concat (map f names)))) =
    if on then sumN (map (fun t => if sel t then cntN (fun s => (negb (is_idle s) && in_class q s)%bool) (f t) else 0%N) names) else 0%N.
  Proof.
    destruct on eqn:EON.
    2:{ apply cntN_false. intros i _. unfold slot. destruct (nth_error _ i) as [s|]; [|reflexivity]. rewrite EON.
        destruct (nth_error (map _ _) _) as [x|] eqn:X; [|apply andb_false_r]. rewrite nth_error_map in X. destruct (nth_error names _); [|discriminate].
        injection X as <-. apply andb_false_r. }
    induction names as [|t ns IH]; [reflexivity|]. cbn [map concat]. rewrite app_length, seq_app, cntN_app. cbn [Nat.add]. change (sumN (?x :: ?l)) with (x + sumN l)%N. f_equal.
    - transitivity (cntN (fun i => match nth_error (f t) i with Some s => (negb (is_idle s) && (sel t && in_class q s))%bool | None => false end) (seq 0 (length (f t)))).
      + apply cntN_ext. intros i I. apply in_seq in I. unfold slot. cbn [map concat]. rewrite EON. rewrite nth_error_app1 by lia.
        cbn [block_index]. replace (i <? length (f t))%nat with true by (symmetry; apply Nat.ltb_lt; lia). reflexivity.
      + rewrite (cntN_nth (fun s => (negb (is_idle s) && (sel t && in_class q s))%bool)). destruct (sel t); [reflexivity|].
        apply cntN_false. intros s _. apply andb_false_r.
    - rewrite seq_from, cntN_map, <- IH. apply cntN_ext. intros i _. unfold slot. cbn [map concat]. rewrite nth_error_app2 by lia.
      replace (length (f t) + i - length (f t))%nat with i by lia. cbn [block_index].
      replace (length (f t) + i <? length (f t))%nat with false by (symmetry; apply Nat.ltb_ge; lia).
      replace (length (f t) + i - length (f t))%nat with i by lia. reflexivity.
  Qed.
End Blocks.

(** The executions of a client that executed its queries [n] times. *)
Lemma executes_count (V : Type) (f : string -> list stmt) (on : bool) sel q names (p : played V) n :
  c_stmts (pl_c p) = concat (map f names) -> c_stats (pl_c p) = map (fun t => if on then Some t else None) names ->
  pl_lens p = map (fun t => length (f t)) names ->
  map ex_stmt (execs (pl_evs p)) = concat (repeat (queries (pl_c p)) n) ->
  cntN (executes p sel q) (execs (pl_evs p)) =
    (N.of_nat n * if on then sumN (map (fun t => if sel t then cntN (fun s => (negb (is_idle s) && in_class q s)%bool) (f t) else 0%N) names) else 0)%N.
Proof.
  intros S ST L M.
  transitivity (cntN (fun i => match nth_error (c_stmts (pl_c p)) i, nth_error (c_stats (pl_c p)) (block_index (pl_lens p) i) with
    | Some s, Some (Some x) => (sel x && in_class q s)%bool | _, _ => false end) (map ex_stmt (execs (pl_evs p)))).
  { rewrite cntN_map. reflexivity. }
  rewrite M, cntN_repeat. f_equal. rewrite <- (cnt_blocks f on sel q names). unfold queries. rewrite cntN_filter, S, ST, L.
  apply cntN_ext. intros i _. unfold slot. destruct (nth_error (concat (map f names)) i) as [s|]; [|reflexivity].
  destruct (negb (is_idle s)); reflexivity.
Qed.

(** The trx of a client begin with a query if its trx files do. *)
Lemma starts_with (f : string -> list stmt) names : (forall t, In t names -> match f t with s :: _ => is_idle s = false | [] => True end) ->
  Forall (fun t => 0 < length (f t))%nat names ->
  forall i s, nth_error (concat (map f names)) i = Some s -> first_of_trx (map (fun t => length (f t)) names) i = true -> is_idle s = false.
Proof.
  induction names as [|t ns IH]; intros H L i s N F; [destruct i; discriminate|]. cbn [map concat] in N. inversion L as [|? ? L1 L2]; subst.
  destruct (Nat.lt_ge_cases i (length (f t))) as [I|I].
  - rewrite nth_error_app1 in N by lia. destruct i as [|i].
    + specialize (H t (or_introl eq_refl)). destruct (f t); [discriminate|]. injection N as ->. exact H.
    + exfalso. unfold first_of_trx in F. cbn [map block_index] in F. rewrite (proj2 (Nat.ltb_lt _ _) I) in F.
      replace (i <? length (f t))%nat with true in F by (symmetry; apply Nat.ltb_lt; lia). discriminate.
  - rewrite nth_error_app2 in N by lia. apply (IH (fun t I => H t (or_intror I)) L2 _ _ N).
    unfold first_of_trx in *. destruct (i - length (f t))%nat as [|k] eqn:E; [reflexivity|].
    destruct i as [|i]; [lia|]. cbn [map block_index] in F. rewrite (proj2 (Nat.ltb_ge _ _) I) in F.
    replace (i <? length (f t))%nat with false in F by (symmetry; apply Nat.ltb_ge; lia).
    replace (i - length (f t))%nat with k in F by lia. replace (S i - length (f t))%nat with (S k) in F by lia. exact F.
Qed.

(** The sum over the clients by client group. *)
Lemma sumN_app a b : sumN (a ++ b) = (sumN a + sumN b)%N.
Proof. induction a as [|x a IH]; [reflexivity|]. cbn. unfold sumN in *. rewrite IH. lia. Qed.
Lemma sum_groups (W : nat -> N) (off : nat -> nat) e : forall css g0 o, (forall k, (k < length css)%nat -> (off e + (g0 + k) = o + k)%nat) ->
  sumN (map (fun x : nat * nat * client => W (off (fst (fst x)) + snd (fst x))%nat) (concat (mapi_from (fun g cls => map (fun c => (e, g, c)) cls) g0 css))) =
  sumN (mapi_from (fun m cls => (N.of_nat (length cls) * W m)%N) o css).
Proof.
  induction css as [|cls css IH]; intros g0 o H; [reflexivity|]. cbn [mapi_from concat]. rewrite map_app, sumN_app, map_map. cbn [fst snd].
  change (sumN (?x :: ?l)) with (x + sumN l)%N. f_equal.
  - specialize (H 0%nat ltac:(cbn; lia)). rewrite !Nat.add_0_r in H. rewrite H. clear. induction cls as [|c cls IH]; [reflexivity|].
    cbn [map length]. change (sumN (?x :: ?l)) with (x + sumN l)%N. rewrite IH. lia.
  - apply IH. intros k K. specialize (H (S k) ltac:(cbn; lia)). lia.
Qed.
Lemma sum_clients (W : nat -> N) (off : nat -> nat) : forall (out : list (list (list client))) e0 o,
  (forall k, (k < length out)%nat -> (off (e0 + k) = o + list_sum (map (@length _) (firstn k out)))%nat) ->
  sumN (map (fun x : nat * nat * client => W (off (fst (fst x)) + snd (fst x))%nat) (concat (mapi_from block e0 out))) =
  sumN (mapi_from (fun m cls => (N.of_nat (length cls) * W m)%N) o (concat out)).
Proof.
  assert (MA : forall A B (h : nat -> A -> B) l l' n, mapi_from h n (l ++ l') = mapi_from h n l ++ mapi_from h (n + length l) l').
  { clear. intros A B h. induction l as [|x l IH]; intros l' n; [now rewrite Nat.add_0_r|]. cbn. rewrite IH. do 2 f_equal. f_equal. lia. }
  induction out as [|css out IH]; intros e0 o H; [reflexivity|]. cbn [mapi_from concat]. rewrite map_app, sumN_app, MA, sumN_app. f_equal.
  - apply sum_groups. intros k K. specialize (H 0%nat ltac:(cbn; lia)). rewrite Nat.add_0_r in H. cbn in H. lia.
  - apply IH. intros k K. specialize (H (S k) ltac:(cbn; lia)). cbn [firstn map] in H. unfold list_sum in *. cbn [fold_right] in H.
    replace (S e0 + k)%nat with (e0 + S k)%nat by lia. rewrite H. lia.
Qed.
