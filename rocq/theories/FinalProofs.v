(** Lemmas for C134. *)
From Verif Require Import Prelude ListAux ScopeModel StmtModel WorkloadModel ClientModel ClientSpec IterModel IterSpec LoopModel LoopSpec LoopProofs WholeModel WholeSpec WholeProofs HaltSpec HaltProofs ProgModel ProgSpec ProgProofs FinalSpec.
From Verif Require LimitProofs.
#[local] Open Scope list_scope.

Section Final.
  Context {V : Type}.
  Variable stages : list (C.stage * list (list (list client))).
  Notation prog_step := (prog_step (V := V) stages).
  Notation prog_run := (prog_run (V := V) stages).

  (** The actions of stage [i]. *)
  Definition of_i (i : nat) (a : paction V) : bool := match a with PStage j _ => Nat.eqb i j | _ => false end.
  Definition cnt (i : nat) (acts : list (paction V)) : nat := length (filter (of_i i) acts).
  Definition is_begin (a : paction V) : bool := match a with PBegin => true | _ => false end.
  Definition is_stop (a : paction V) : bool := match a with PStop => true | _ => false end.

  Record ninv (acts : list (paction V)) (st : pst V) (tr : list (nat * wevent V)) : Prop := {
    n_inv : pinv stages st tr;
    n_none : forall i, (length (p_sts st) <= i)%nat -> cnt i acts = 0%nat;
    n_proj : forall i c out w, nth_error stages i = Some (c, out) -> nth_error (p_sts st) i = Some w ->
      exists wacts, whole_run c out (whole_init out) wacts = Some (w, of_stage i tr) /\ (cnt i acts <= length wacts)%nat;
    n_begin : length (filter is_begin acts) = length (p_sts st);
    n_stop : length (filter is_stop acts) = if p_stop st then 1%nat else 0%nat }.

  Lemma cnt_app i a b : cnt i (a ++ b) = (cnt i a + cnt i b)%nat.
  Proof. unfold cnt. now rewrite filter_app, app_length. Qed.
  Lemma ninv_step acts st tr a st' es : ninv acts st tr -> prog_step st a = Some (st', es) -> ninv (acts ++ [a]) st' (tr ++ es).
  Proof.
    intros N H. pose proof (n_inv _ _ _ N) as I. destruct (len_step _ _ _ _ _ _ I H) as (L1 & L2). pose proof (prog_cases _ _ _ _ _ H) as CS.
    split.
    - eapply pinv_step; eauto.
    - intros i LE. rewrite cnt_app, (n_none _ _ _ N i) by (destruct a; lia). cbn.
      destruct CS as [(-> & _)|[(j & a' & c1 & o1 & w1 & w2 & es' & -> & _ & _ & N2 & _)|(-> & _)]]; [reflexivity| |reflexivity].
      unfold cnt. cbn. destruct (Nat.eqb_spec i j) as [->|]; [|reflexivity]. assert (j < length (p_sts st))%nat by (apply nth_error_Some; congruence). lia.
    - intros i c out w' NS W'. destruct (nth_error (p_sts st) i) as [w|] eqn:NW.
      + destruct (one_stage _ _ _ _ _ _ _ _ _ _ I H NS NW) as (w2 & W2 & R). rewrite W' in W2. injection W2 as <-.
        destruct (n_proj _ _ _ N _ _ _ _ NS NW) as (wacts & WR & LE). exists (wacts ++ acts_in i a). rewrite wrun_app, WR, R, of_stage_app, app_length, cnt_app. split; [reflexivity|].
        enough (cnt i [a] <= length (acts_in i a))%nat by lia. unfold cnt. destruct a as [|j a|]; cbn; [lia| |lia]. destruct (Nat.eqb i j); cbn; lia.
      + destruct (p_proj _ _ _ (pinv_step _ _ _ _ _ _ I H) _ _ _ _ NS W') as (wacts & WR). exists wacts. split; [exact WR|]. apply nth_error_None in NW.
        rewrite cnt_app, (n_none _ _ _ N i NW). destruct CS as [(-> & _)|[(j & a' & c1 & o1 & w1 & w2 & es' & -> & _ & _ & N2 & _)|(-> & _)]]; [cbn; lia| |cbn; lia].
        unfold cnt. cbn. destruct (Nat.eqb_spec i j) as [->|]; [|cbn; lia]. assert (j < length (p_sts st))%nat by (apply nth_error_Some; congruence). lia.
    - rewrite filter_app, app_length, (n_begin _ _ _ N), L1. destruct a; reflexivity.
    - rewrite filter_app, app_length, (n_stop _ _ _ N). destruct CS as [(-> & _ & P & _ & P' & _)|[(j & a' & ? & ? & ? & ? & ? & -> & _ & _ & _ & _ & _ & P' & _)|(-> & _ & P & P' & _)]].
      + rewrite P, P'. reflexivity.
      + rewrite P'. cbn. lia.
      + rewrite P, P'. reflexivity.
  Qed.
  Lemma ninv_init : ninv [] prog_init [].
  Proof. split; [apply pinv_init|reflexivity|intros [|i] c out w _ N; discriminate|reflexivity|reflexivity]. Qed.
  Lemma ninv_more acts : forall acts0 st tr0 st' tr, ninv acts0 st tr0 -> prog_run st acts = Some (st', tr) -> ninv (acts0 ++ acts) st' (tr0 ++ tr).
  Proof.
    induction acts as [|a acts IH]; intros acts0 st tr0 st' tr I H; cbn [ProgModel.prog_run] in H; [injection H as <- <-; now rewrite !app_nil_r|].
    destruct (prog_step st a) as [[st1 es]|] eqn:E; [|discriminate]. destruct (prog_run st1 acts) as [[st2 tr2]|] eqn:E2; [|discriminate]. injection H as <- <-.
    rewrite app_assoc. change (a :: acts) with ([a] ++ acts). rewrite app_assoc. eapply IH; [|exact E2]. eapply ninv_step; eauto.
  Qed.
  Lemma ninv_run acts st tr : prog_run prog_init acts = Some (st, tr) -> ninv acts st tr.
  Proof. intros H. exact (ninv_more acts [] _ [] _ _ ninv_init H). Qed.

  Lemma count_kinds (acts : list (paction V)) n : (forall i, (n <= i)%nat -> cnt i acts = 0%nat) ->
    length acts = (length (filter is_begin acts) + length (filter is_stop acts) + list_sum (map (fun i => cnt i acts) (seq 0 n)))%nat.
  Proof.
    induction acts as [|a acts IH]; intros Z.
    - assert (X : forall m k, list_sum (map (fun i => cnt i []) (seq k m)) = 0%nat) by (clear; induction m as [|m IH]; intros k; [reflexivity|]; exact (IH (S k))). now rewrite X.
    - assert (Z' : forall i, (n <= i)%nat -> cnt i acts = 0%nat) by (intros i L; specialize (Z i L); unfold cnt in *; cbn in Z; destruct (of_i i a); [discriminate|exact Z]).
      specialize (IH Z'). destruct a as [|j a|]; cbn [length filter is_begin is_stop].
      + replace (map (fun i => cnt i (PBegin :: acts)) (seq 0 n)) with (map (fun i => cnt i acts) (seq 0 n)) by (apply map_ext; reflexivity). lia.
      + assert (LJ : (j < n)%nat). { destruct (Nat.lt_ge_cases j n) as [|G]; [assumption|]. specialize (Z j G). unfold cnt in Z. cbn in Z. rewrite Nat.eqb_refl in Z. discriminate. }
        assert (X : forall m k, list_sum (map (fun i => cnt i (PStage j a :: acts)) (seq k m)) = (list_sum (map (fun i => cnt i acts) (seq k m)) + if ((k <=? j) && (j <? k + m))%nat then 1 else 0)%nat).
        { clear. induction m as [|m IHm]; intros k; cbn [seq map].
          - assert (E : ((k <=? j) && (j <? k + 0))%nat = false) by (destruct (Nat.leb_spec k j), (Nat.ltb_spec j (k + 0)); cbn; try reflexivity; lia). rewrite E. reflexivity.
          - change (list_sum (cnt k (PStage j a :: acts) :: map (fun i => cnt i (PStage j a :: acts)) (seq (S k) m))) with (cnt k (PStage j a :: acts) + list_sum (map (fun i => cnt i (PStage j a :: acts)) (seq (S k) m)))%nat.
            change (list_sum (cnt k acts :: map (fun i => cnt i acts) (seq (S k) m))) with (cnt k acts + list_sum (map (fun i => cnt i acts) (seq (S k) m)))%nat.
            rewrite IHm. unfold cnt at 1. cbn [filter of_i]. fold (cnt k acts).
            assert (B : forall u, ((u <=? j) && (j <? u + m))%nat = true <-> (u <= j < u + m)%nat) by (intros u; rewrite andb_true_iff, Nat.leb_le, Nat.ltb_lt; reflexivity).
            assert (B' : ((k <=? j) && (j <? k + S m))%nat = true <-> (k <= j < k + S m)%nat) by (rewrite andb_true_iff, Nat.leb_le, Nat.ltb_lt; reflexivity).
            specialize (B (S k)). destruct ((S k <=? j) && (j <? S k + m))%nat, ((k <=? j) && (j <? k + S m))%nat, (Nat.eqb_spec k j); cbn [length]; fold (cnt k acts); try lia;
            try (assert (S k <= j < S k + m)%nat by (apply B; reflexivity)); try (assert (k <= j < k + S m)%nat by (apply B'; reflexivity));
            try (assert (~ (S k <= j < S k + m))%nat by (intros Q; apply B in Q; discriminate)); try (assert (~ (k <= j < k + S m))%nat by (intros Q; apply B' in Q; discriminate)); lia. }
        rewrite X. destruct (Nat.leb_spec 0 j); [|lia]. destruct (Nat.ltb_spec j (0 + n)); [|lia]. cbn [andb]. lia.
      + replace (map (fun i => cnt i (PStop :: acts)) (seq 0 n)) with (map (fun i => cnt i acts) (seq 0 n)) by (apply map_ext; reflexivity). lia.
  Qed.
  Lemma bounds_all (P : nat -> nat -> Prop) n : (forall i, (i < n)%nat -> exists b, P i b) -> exists bs, length bs = n /\ forall i b, nth_error bs i = Some b -> P i b.
  Proof.
    induction n as [|n IH]; intros H; [exists []; split; [reflexivity|intros [|i] b; discriminate]|].
    destruct IH as (bs & L & F); [intros; apply H; lia|]. destruct (H n) as (b & B); [lia|]. exists (bs ++ [b]). split; [rewrite app_length; cbn; lia|].
    intros i x X. destruct (Nat.lt_ge_cases i n) as [LT|GE]; [rewrite nth_error_app1 in X by lia; eauto|].
    assert (i < length (bs ++ [b]))%nat as LI by (apply nth_error_Some; congruence). rewrite app_length in LI. cbn in LI. assert (i = n) as -> by lia.
    rewrite nth_error_app2, L, Nat.sub_diag in X by lia. cbn in X. injection X as <-. exact B.
  Qed.
  Lemma sum_le (f : nat -> nat) (bs : list nat) : (forall i b, nth_error bs i = Some b -> (f i <= b)%nat) -> forall n, n = length bs -> (list_sum (map f (seq 0 n)) <= list_sum bs)%nat.
  Proof.
    intros H n ->. assert (X : forall k, (forall i b, nth_error bs i = Some b -> (f (k + i) <= b)%nat) -> (list_sum (map f (seq k (length bs))) <= list_sum bs)%nat); [|exact (X 0%nat H)].
    clear. induction bs as [|b bs IH]; intros k H; [cbn; lia|]. cbn [length seq map].
    change (list_sum (f k :: map f (seq (S k) (length bs)))) with (f k + list_sum (map f (seq (S k) (length bs))))%nat. change (list_sum (b :: bs)) with (b + list_sum bs)%nat.
    pose proof (H 0%nat b eq_refl) as H0. rewrite Nat.add_0_r in H0. enough (list_sum (map f (seq (S k) (length bs))) <= list_sum bs)%nat by lia.
    apply IH. intros i x X. replace (S k + i)%nat with (k + S i)%nat by lia. apply H. exact X.
  Qed.
End Final.
