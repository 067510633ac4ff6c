(** Exec groups and the automatic workload. *)
From Coq Require Import Decimal DecimalString DecimalNat.
From Verif Require Import Prelude ListAux ScopeModel StmtModel WorkloadModel WorkloadSpec.
#[local] Open Scope string_scope.
#[local] Open Scope list_scope.

Lemma dec_inj n m : dec n = dec m -> n = m.
Proof.
  unfold dec. intros H. apply (f_equal NilEmpty.uint_of_string) in H.
  rewrite !NilEmpty.usu in H. inversion H as [H1].
  apply (f_equal Nat.of_uint) in H1. now rewrite !Unsigned.of_to in H1.
Qed.

Lemma append_inj_l p a b : (p ++ a)%string = (p ++ b)%string -> a = b.
Proof. induction p; cbn; intros H; [auto|]. inv H. auto. Qed.

(** ** Grouping *)

Definition wname (w : list cgcfg) := map cg_group w.

(** what [group_loop] keeps true: [done] are the indexes grouped so far *)
Fixpoint runs (names : list string) : list (list string) :=
  match names with
  | [] => []
  | n :: names' =>
    match runs names' with
    | (m :: r) :: rs => if String.eqb n m then (n :: m :: r) :: rs else [n] :: (m :: r) :: rs
    | rs => [n] :: rs
    end
  end.

Lemma append_to_last_spec {A} (gs : list (list A)) g x :
  append_to_last (gs ++ [g]) x = Some (gs ++ [g ++ [x]]).
Proof.
  induction gs as [|a gs IH]; cbn [app append_to_last]; auto.
  destruct (gs ++ [g]) eqn:E; [destruct gs; discriminate|]. rewrite <- E in IH |- *. rewrite IH.
  destruct gs; cbn in E |- *; inv E; reflexivity.
Qed.

(** ginv: after grouping indexes [0..i), the last group's name is [name]. *)
Record ginv (all : list cgcfg) (i : nat) (name : string) (gs : list (list nat)) : Prop := {
  gi_concat : concat gs = seq 0 i;
  gi_ne : Forall (fun g => g <> []) gs;
  gi_same : forall g a b, In g gs -> In a g -> In b g -> name_of all a = name_of all b;
  gi_adj : forall e g g' a b, nth_error gs e = Some g -> nth_error gs (S e) = Some g' ->
           In a g -> In b g' -> name_of all a <> name_of all b;
  gi_last : match rev gs with
            | [] => i = 0%nat
            | g :: _ => forall a, In a g -> name_of all a = Some name
            end }.

Lemma group_loop_inv all : forall w i name gs gs',
  (forall c, In c all -> cg_group c <> "") ->
  (i + length w = length all)%nat -> skipn i all = w ->
  ginv all i name gs -> (gs = [] -> name = "") ->
  group_loop w i name gs = Some gs' ->
  exists name', ginv all (length all) name' gs'.
Proof.
  induction w as [|c w IH]; intros i name gs gs' NE L SK I E0 H; cbn [group_loop] in H.
  - inv H. rewrite Nat.add_0_r in L. rewrite L in I. eauto.
  - assert (HC : nth_error all i = Some c).
    { rewrite <- (firstn_skipn i all), SK. rewrite nth_error_app2; rewrite firstn_length; [|lia].
      replace (i - Nat.min i (length all))%nat with 0%nat by (cbn in L; lia). reflexivity. }
    assert (NC : name_of all i = Some (cg_group c)) by (unfold name_of; now rewrite HC).
    assert (SK' : skipn (S i) all = w).
    { clear - SK. revert i SK. induction all as [|a all IH]; intros [|i] SK; cbn in *; try discriminate.
      - now inv SK.
      - apply IH. exact SK. }
    destruct I as [I1 I2 I3 I4 I5].
    destruct (String.eqb_spec name (cg_group c)) as [EQ|NEQ]; cbn [negb] in H.
    + (* append to the last group *)
      destruct (rev gs) as [|g r] eqn:ER.
      { exfalso. assert (gs = []) by (rewrite <- (rev_involutive gs), ER; reflexivity).
        apply (NE c); [eapply nth_error_In; eauto|]. rewrite <- EQ. auto. }
      assert (EG : gs = rev r ++ [g]) by (rewrite <- (rev_involutive gs), ER; reflexivity).
      rewrite EG, append_to_last_spec in H.
      eapply (IH (S i) name (rev r ++ [g ++ [i]])); eauto; [cbn in L; lia| |].
      2:{ intros X. destruct (rev r); discriminate. }
      rewrite EG in *. constructor.
      * rewrite concat_app in *. cbn in *. rewrite app_nil_r in *. rewrite app_assoc, I1. change (0 :: seq 1 i)%nat with (seq 0 (S i)). rewrite (seq_S i 0). reflexivity.
      * apply Forall_app in I2 as [A B]. apply Forall_app. split; auto. constructor; auto. destruct g; discriminate.
      * intros g' a b G A B. apply in_app_or in G as [G|[<-|[]]].
        { apply (I3 g'); auto. apply in_or_app; auto. }
        assert (X : forall a, In a (g ++ [i]) -> name_of all a = Some name).
        { intros a' HA. apply in_app_or in HA as [HA|[<-|[]]]; [auto|congruence]. }
        rewrite (X a A), (X b B). reflexivity.
      * intros e g1 g2 a b G1 G2 A B.
        destruct (Nat.lt_trichotomy (S e) (length (rev r))) as [LT|[EQ'|GT]].
        -- rewrite nth_error_app1 in G1, G2 by lia.
           apply (I4 e g1 g2); auto; rewrite nth_error_app1 by lia; auto.
        -- rewrite nth_error_app1 in G1 by lia. rewrite nth_error_app2 in G2 by lia.
           replace (S e - length (rev r))%nat with 0%nat in G2 by lia. cbn in G2. inv G2.
           destruct g as [|g0 g]; [apply Forall_app in I2 as [_ I2]; inversion I2; congruence|].
           assert (X : name_of all a <> name_of all g0).
           { apply (I4 e g1 (g0 :: g)); auto; [rewrite nth_error_app1 by lia; auto| |left; auto].
             rewrite nth_error_app2 by lia. replace (S e - length (rev r))%nat with 0%nat by lia. reflexivity. }
           rewrite (I5 g0) in X by (left; auto). apply in_app_or in B as [B|[<-|[]]]; [rewrite (I5 b) by auto; auto|congruence].
        -- rewrite nth_error_app2 in G2 by lia.
           destruct (S e - length (rev r))%nat as [|m] eqn:EM; [lia|]. destruct m; discriminate.
      * rewrite rev_app_distr. cbn. intros a A. apply in_app_or in A as [A|[<-|[]]]; [auto|congruence].
    + (* new group *)
      rewrite append_to_last_spec in H. cbn [app] in H.
      eapply (IH (S i) (cg_group c) (gs ++ [[i]])); eauto; [cbn in L; lia| |].
      2:{ intros X. destruct gs; discriminate. }
      constructor.
      * rewrite concat_app. rewrite I1, (seq_S i 0). reflexivity.
      * apply Forall_app. split; auto. constructor; auto. discriminate.
      * intros g' a b G A B. apply in_app_or in G as [G|[<-|[]]]; [apply (I3 g'); auto|].
        destruct A as [<-|[]], B as [<-|[]]. reflexivity.
      * intros e g1 g2 a b G1 G2 A B.
        destruct (Nat.lt_trichotomy (S e) (length gs)) as [LT|[EQ'|GT]].
        -- rewrite nth_error_app1 in G1, G2 by lia. apply (I4 e g1 g2); auto.
        -- rewrite nth_error_app1 in G1 by lia. rewrite nth_error_app2 in G2 by lia.
           replace (S e - length gs)%nat with 0%nat in G2 by lia. cbn in G2. inv G2.
           destruct B as [<-|[]]. rewrite NC.
           assert (RG : exists r, rev gs = g1 :: r).
           { destruct (rev gs) as [|x r] eqn:ER.
             - assert (gs = []) as -> by (rewrite <- (rev_involutive gs), ER; reflexivity). cbn in EQ'. lia.
             - exists r. f_equal.
               assert (EG : gs = rev r ++ [x]) by (rewrite <- (rev_involutive gs), ER; reflexivity).
               rewrite EG in G1, EQ'. rewrite app_length in EQ'. cbn in EQ'.
               rewrite nth_error_app2 in G1 by lia. replace (e - length (rev r))%nat with 0%nat in G1 by lia.
               cbn in G1. congruence. }
           destruct RG as [r ER]. rewrite ER in I5. rewrite (I5 a A). congruence.
        -- rewrite nth_error_app2 in G2 by lia.
           destruct (S e - length gs)%nat as [|m] eqn:EM; [lia|]. destruct m; discriminate.
      * rewrite rev_app_distr. cbn. intros a [<-|[]]. auto.
Qed.

Lemma group_loop_total : forall w i name gs,
  (forall c, In c w -> cg_group c <> "") -> (gs = [] -> name = "") ->
  exists gs', group_loop w i name gs = Some gs'.
Proof.
  induction w as [|c w IH]; intros i name gs NE E0; cbn [group_loop]; [eauto|].
  assert (C : cg_group c <> "") by (apply NE; left; auto).
  destruct (String.eqb_spec name (cg_group c)) as [EQ|NEQ]; cbn [negb].
  - destruct (rev gs) as [|g r] eqn:ER.
    { exfalso. assert (gs = []) by (rewrite <- (rev_involutive gs), ER; reflexivity).
      apply C. rewrite <- EQ. auto. }
    assert (EG : gs = rev r ++ [g]) by (rewrite <- (rev_involutive gs), ER; reflexivity).
    rewrite EG, append_to_last_spec. apply IH; [intros; apply NE; right; auto|].
    intros X. destruct (rev r); discriminate.
  - rewrite append_to_last_spec. apply IH; [intros; apply NE; right; auto|].
    intros X. destruct gs; discriminate.
Qed.

(** ** Names *)

Lemma fill_length ts w : forall a d p pr, length (fill_groups ts w a d p pr) = length w.
Proof.
  induction w as [|c w IH]; intros a d p pr; cbn [fill_groups length]; auto.
  destruct (negb (cg_group c =? "")%string); [cbn; now rewrite IH|].
  destruct (has_ddl ts _); [cbn; now rewrite IH|]. destruct p; cbn; now rewrite IH.
Qed.

Lemma has_ddl_iff ts l : has_ddl ts l = true <-> exists t, In t l /\ ts_ddl ts t = true.
Proof.
  induction l as [|t l IH]; cbn; [split; [discriminate|intros (? & [] & _)]|].
  destruct (ts_ddl ts t) eqn:E.
  - split; auto. intros _. exists t. auto.
  - rewrite IH. split; intros (x & A & B); [eauto|]. destruct A as [->|A]; [congruence|eauto].
Qed.

(** everything except the name *)
Lemma fill_nth ts w : forall a d p pr i c,
  nth_error w i = Some c ->
  exists name, nth_error (fill_groups ts w a d p pr) i =
    Some (cg_with c name (trx_of ts c)
            (if has_ddl ts (trx_of ts c) && (cg_iter c =? 0)%N then 1%N else cg_iter c)) /\
    (cg_group c <> "" -> name = cg_group c).
Proof.
  induction w as [|c0 w IH]; intros a d p pr i c H; [destruct i; discriminate|].
  cbn [fill_groups]. unfold trx_of in *.
  destruct i as [|i]; cbn in H.
  - inv H. destruct (String.eqb_spec (cg_group c) "") as [E|E]; cbn [negb].
    + destruct (has_ddl ts match cg_trx c with [] => ts_order ts | s :: l => s :: l end);
        [|destruct p]; cbn; eexists; (split; [reflexivity|congruence]).
    + cbn. eexists; split; [reflexivity|auto].
  - destruct (negb (cg_group c0 =? "")%string); [cbn; apply IH; auto|].
    destruct (has_ddl ts _); [cbn; apply IH; auto|]. destruct p; cbn; apply IH; auto.
Qed.

(** names of unnamed groups *)
Lemma fill_names ts w : forall a d p pr,
  (p = false -> exists n, (n <= a)%nat /\ (1 <= n)%nat /\ pr = ("dml" ++ dec n)%string) ->
  forall i c c', nth_error w i = Some c -> nth_error (fill_groups ts w a d p pr) i = Some c' ->
  cg_group c = "" ->
  (has_ddl ts (trx_of ts c) = true -> exists n, (d < n)%nat /\ cg_group c' = ("ddl" ++ dec n)%string) /\
  (has_ddl ts (trx_of ts c) = false -> exists n, cg_group c' = ("dml" ++ dec n)%string).
Proof.
  induction w as [|c0 w IH]; intros a d p pr INV i c c' H F E; [destruct i; discriminate|].
  cbn [fill_groups] in F. fold (trx_of ts c0) in F.
  destruct i as [|i]; cbn in H.
  - inv H. rewrite E in F. cbn [String.eqb negb] in F.
    destruct (has_ddl ts (trx_of ts c)) eqn:HD.
    + cbn [nth_error] in F. inv F. cbn [cg_group cg_with]. split; [|discriminate].
      intros _. exists (S d). split; [lia|reflexivity].
    + destruct p; cbn [nth_error] in F; inv F; cbn [cg_group cg_with]; (split; [discriminate|]); intros _.
      { exists (S a). reflexivity. }
      destruct (INV eq_refl) as (n & _ & _ & ->). exists n. reflexivity.
  - destruct (negb (cg_group c0 =? "")%string).
    { cbn in F. eapply IH; eauto. }
    destruct (has_ddl ts (trx_of ts c0)).
    { cbn in F. destruct (IH a (S d) true _ ltac:(discriminate) _ _ _ H F E) as [A B].
      split; auto. intros X. destruct (A X) as (n & N1 & N2). exists n. split; [lia|auto]. }
    destruct p.
    + cbn in F. eapply (IH (S a) d false); eauto. intros _. exists (S a). repeat split; auto. lia.
    + cbn in F. eapply IH; eauto.
Qed.

Lemma fill_names_ne ts w : forall a d p pr,
  (p = false -> pr <> "") -> forall c, In c (fill_groups ts w a d p pr) -> cg_group c <> "".
Proof.
  induction w as [|c0 w IH]; intros a d p pr INV c H; [destruct H|].
  cbn [fill_groups] in H. fold (trx_of ts c0) in H.
  destruct (String.eqb_spec (cg_group c0) "") as [E|E]; cbn [negb] in H.
  - destruct (has_ddl ts (trx_of ts c0)).
    + destruct H as [<-|H]; [discriminate|]. eapply IH; [|exact H]. discriminate.
    + destruct p; destruct H as [<-|H]; try discriminate.
      * eapply IH; [|exact H]. discriminate.
      * cbn. auto.
      * eapply IH; [|exact H]. auto.
  - destruct H as [<-|H]; [auto|]. eapply IH; [|exact H]. auto.
Qed.

(** the automatic names of DDL groups are pairwise different *)
Lemma fill_ddl_unique ts w : forall a d p pr,
  (p = false -> exists n, (n <= a)%nat /\ (1 <= n)%nat /\ pr = ("dml" ++ dec n)%string) ->
  forall i j ci cj ci' cj', (i < j)%nat ->
  nth_error w i = Some ci -> nth_error w j = Some cj ->
  nth_error (fill_groups ts w a d p pr) i = Some ci' -> nth_error (fill_groups ts w a d p pr) j = Some cj' ->
  cg_group ci = "" -> cg_group cj = "" ->
  has_ddl ts (trx_of ts ci) = true \/ has_ddl ts (trx_of ts cj) = true ->
  cg_group ci' <> cg_group cj'.
Proof.
  induction w as [|c0 w IH]; intros a d p pr INV i j ci cj ci' cj' L Hi Hj Fi Fj Ei Ej D; [destruct i; discriminate|].
  destruct j as [|j]; [lia|]. cbn in Hj.
  cbn [fill_groups] in Fi, Fj. fold (trx_of ts c0) in Fi, Fj.
  destruct i as [|i].
  - cbn in Hi. inv Hi. rewrite Ei in Fi, Fj. cbn [String.eqb negb] in Fi, Fj.
    destruct (has_ddl ts (trx_of ts ci)) eqn:HD.
    + cbn [nth_error] in Fi, Fj. inv Fi. cbn [cg_group cg_with].
      destruct (has_ddl ts (trx_of ts cj)) eqn:HDj.
      * destruct (proj1 (fill_names ts w a (S d) true _ ltac:(discriminate) _ _ _ Hj Fj Ej) HDj) as (n & N1 & ->).
        intros X. apply (append_inj_l "ddl") in X. apply dec_inj in X. lia.
      * destruct (proj2 (fill_names ts w a (S d) true _ ltac:(discriminate) _ _ _ Hj Fj Ej) HDj) as (n & ->).
        discriminate.
    + destruct D as [D|D]; [congruence|].
      assert (X : exists n, cg_group ci' = ("dml" ++ dec n)%string).
      { destruct p; cbn [nth_error] in Fi; inv Fi; cbn [cg_group cg_with]; [exists (S a); reflexivity|].
        destruct (INV eq_refl) as (n & _ & _ & ->). exists n. reflexivity. }
      destruct X as (n & ->).
      assert (Y : exists m, cg_group cj' = ("ddl" ++ dec m)%string).
      { destruct p; cbn in Fj.
        - destruct (proj1 (fill_names ts w (S a) d false _ (fun _ => ex_intro _ (S a) (conj (le_n _) (conj (le_n_S _ _ (Nat.le_0_l a)) eq_refl))) _ _ _ Hj Fj Ej) D) as (m & _ & ->). eauto.
        - destruct (proj1 (fill_names ts w a d false _ INV _ _ _ Hj Fj Ej) D) as (m & _ & ->). eauto. }
      destruct Y as (m & ->). discriminate.
  - cbn in Hi.
    destruct (negb (cg_group c0 =? "")%string).
    { cbn in Fi, Fj. eapply (IH a d p pr INV i j); eauto. lia. }
    destruct (has_ddl ts (trx_of ts c0)).
    { cbn in Fi, Fj. eapply (IH a (S d) true _ ltac:(discriminate) i j); eauto. lia. }
    destruct p; cbn in Fi, Fj.
    + eapply (IH (S a) d false _ (fun _ => ex_intro _ (S a) (conj (le_n _) (conj (le_n_S _ _ (Nat.le_0_l a)) eq_refl))) i j); eauto. lia.
    + eapply (IH a d false pr INV i j); eauto. lia.
Qed.

(** two consecutive unnamed groups without DDL get the same name *)
Lemma fill_dml_adjacent ts w : forall a d p pr i ci cj ci' cj',
  nth_error w i = Some ci -> nth_error w (S i) = Some cj ->
  nth_error (fill_groups ts w a d p pr) i = Some ci' -> nth_error (fill_groups ts w a d p pr) (S i) = Some cj' ->
  cg_group ci = "" -> cg_group cj = "" ->
  has_ddl ts (trx_of ts ci) = false -> has_ddl ts (trx_of ts cj) = false ->
  cg_group ci' = cg_group cj'.
Proof.
  induction w as [|c0 w IH]; intros a d p pr i ci cj ci' cj' Hi Hj Fi Fj Ei Ej Di Dj; [destruct i; discriminate|].
  cbn [fill_groups] in Fi, Fj. fold (trx_of ts c0) in Fi, Fj.
  destruct i as [|i].
  - cbn in Hi, Hj. inv Hi. destruct w as [|c1 w]; [discriminate|]. cbn in Hj. inv Hj.
    rewrite Ei, Di in Fi, Fj. cbn [fill_groups] in Fj. fold (trx_of ts cj) in Fj. rewrite Ej, Dj in Fj.
    cbn [String.eqb negb] in Fi, Fj.
    destruct p; cbn in Fi, Fj; inv Fi; inv Fj; reflexivity.
  - cbn in Hi, Hj.
    destruct (negb (cg_group c0 =? "")%string); [cbn in Fi, Fj; eapply IH; eauto|].
    destruct (has_ddl ts (trx_of ts c0)); [cbn in Fi, Fj; eapply IH; eauto|].
    destruct p; cbn in Fi, Fj; eapply IH; eauto.
Qed.

(** ** AutoAssign *)

Lemma append_last_spec cgs c t :
  append_last (cgs ++ [c]) t = Some (cgs ++ [cg_with c (cg_group c) (cg_trx c ++ [t]) (cg_iter c)]).
Proof.
  induction cgs as [|a cgs IH]; cbn [app append_last]; auto.
  destruct (cgs ++ [c]) eqn:E; [destruct cgs; discriminate|]. rewrite <- E in IH |- *. rewrite IH. 
  destruct cgs; cbn in E |- *; inv E; reflexivity.
Qed.

(** the property of the automatic workload *)
Definition auto_ok (ts : trxset) (cgs : list cgcfg) (names : list string) (prevDDL : bool) : Prop :=
  concat (map cg_trx cgs) = names /\
  Forall (fun c => cg_trx c <> [] /\
     ((exists t, c = cg_auto 1 [t] /\ ts_ddl ts t = true) \/
      (c = cg_auto 0 (cg_trx c) /\ Forall (fun t => ts_ddl ts t = false) (cg_trx c)))) cgs /\
  (forall i a b, nth_error cgs i = Some a -> nth_error cgs (S i) = Some b ->
     has_ddl ts (cg_trx a) = true \/ has_ddl ts (cg_trx b) = true) /\
  (prevDDL = match rev cgs with [] => true | c :: _ => has_ddl ts (cg_trx c) end).

Lemma auto_loop_ok ts names : forall done cgs prev,
  auto_ok ts cgs done prev ->
  exists cgs' prev', auto_assign_loop ts names cgs prev = Some cgs' /\ auto_ok ts cgs' (done ++ names) prev'.
Proof.
  induction names as [|n names IH]; intros done cgs prev I; cbn [auto_assign_loop].
  - rewrite app_nil_r. eauto.
  - replace (done ++ n :: names) with ((done ++ [n]) ++ names) by (now rewrite <- app_assoc).
    destruct I as (I1 & I2 & I3 & I4).
    assert (NEWADJ : forall c, prev = true \/ has_ddl ts (cg_trx c) = true ->
      forall i a b, nth_error (cgs ++ [c]) i = Some a -> nth_error (cgs ++ [c]) (S i) = Some b ->
      has_ddl ts (cg_trx a) = true \/ has_ddl ts (cg_trx b) = true).
    { intros c PD i a b A B.
      destruct (Nat.lt_trichotomy (S i) (length cgs)) as [LT|[EQ|GT]].
      - rewrite nth_error_app1 in A, B by lia. eauto.
      - rewrite nth_error_app1 in A by lia. rewrite nth_error_app2 in B by lia.
        replace (S i - length cgs)%nat with 0%nat in B by lia. cbn in B. inv B.
        destruct PD as [PD|PD]; [left|right; auto].
        destruct (rev cgs) as [|x r] eqn:ER.
        { assert (cgs = []) as -> by (rewrite <- (rev_involutive cgs), ER; reflexivity). discriminate. }
        assert (EG : cgs = rev r ++ [x]) by (rewrite <- (rev_involutive cgs), ER; reflexivity).
        rewrite EG in A, EQ. rewrite app_length in EQ. cbn in EQ.
        rewrite nth_error_app2 in A by lia. replace (i - length (rev r))%nat with 0%nat in A by lia. cbn in A. inv A.
        congruence.
      - rewrite nth_error_app2 in B by lia.
        destruct (S i - length cgs)%nat as [|m] eqn:EM; [lia|]. destruct m; discriminate. }
    destruct (ts_ddl ts n) eqn:HD; [|destruct prev].
    + apply IH. split; [|split; [|split]].
      * rewrite map_app, concat_app, I1. reflexivity.
      * apply Forall_app. split; auto. constructor; auto. split; [discriminate|]. left. eauto.
      * apply NEWADJ. right. cbn. now rewrite HD.
      * rewrite rev_app_distr. cbn. now rewrite HD.
    + apply IH. split; [|split; [|split]].
      * rewrite map_app, concat_app, I1. reflexivity.
      * apply Forall_app. split; auto. constructor; auto. split; [discriminate|]. right. split; auto. 
        cbn. constructor; auto.
      * apply NEWADJ. left. auto.
      * rewrite rev_app_distr. cbn. now rewrite HD.
    + destruct (rev cgs) as [|x r] eqn:ER; [discriminate|].
      assert (EG : cgs = rev r ++ [x]) by (rewrite <- (rev_involutive cgs), ER; reflexivity).
      rewrite EG, append_last_spec. apply IH. rewrite EG in I1, I2, I3.
      apply Forall_app in I2 as [F1 F2]. inversion F2 as [|? ? [X0 X1] _]; subst.
      assert (XD : x = cg_auto 0 (cg_trx x) /\ Forall (fun t => ts_ddl ts t = false) (cg_trx x)).
      { destruct X1 as [(t & -> & T)|X1]; auto. cbn in I4. rewrite T in I4. discriminate. }
      destruct XD as [XA XF].
      assert (HX : has_ddl ts (cg_trx x ++ [n]) = false).
      { destruct (has_ddl ts (cg_trx x ++ [n])) eqn:Y; auto. apply has_ddl_iff in Y as (t & T1 & T2).
        apply in_app_or in T1 as [T1|[<-|[]]]; [|congruence]. rewrite Forall_forall in XF. rewrite XF in T2; auto. }
      split; [|split; [|split]].
      * rewrite map_app, concat_app. cbn. rewrite app_nil_r.
        rewrite map_app, concat_app. cbn. now rewrite app_nil_r, app_assoc.
      * apply Forall_app. split; auto. constructor; auto. cbn.
        split; [destruct (cg_trx x); discriminate|]. right. split.
        -- rewrite XA. reflexivity.
        -- apply Forall_app. auto.
      * intros i a b A B.
        destruct (Nat.lt_trichotomy (S i) (length (rev r))) as [LT|[EQ|GT]].
        -- rewrite nth_error_app1 in A, B by lia. apply (I3 i); rewrite nth_error_app1 by lia; auto.
        -- rewrite nth_error_app1 in A by lia.
           destruct (I3 i a x) as [Y|Y]; auto.
           { rewrite nth_error_app1 by lia; auto. }
           { rewrite nth_error_app2 by lia. replace (S i - length (rev r))%nat with 0%nat by lia. reflexivity. }
           congruence.
        -- rewrite nth_error_app2 in B by lia.
           destruct (S i - length (rev r))%nat as [|m] eqn:EM; [lia|]. destruct m; discriminate.
      * rewrite rev_app_distr. cbn. auto.
Qed.

Lemma auto_assign_ok ts : exists cgs, auto_assign ts = Some cgs /\ exists prev, auto_ok ts cgs (ts_order ts) prev.
Proof.
  destruct (auto_loop_ok ts (ts_order ts) [] [] true) as (cgs & p & A & B).
  - split; [reflexivity|]. split; [constructor|]. split; [|reflexivity]. intros [|i] a b X; discriminate.
  - exists cgs. split; auto. exists p. exact B.
Qed.

(** ** Groups *)

Lemma groups_spec ts w : exists w0 wl gs,
  (w <> [] -> w0 = w) /\ (w = [] -> auto_assign ts = Some w0) /\
  groups ts w = Some (wl, gs) /\ wl = fill_groups ts w0 0 0 true "" /\
  exists name, ginv wl (length wl) name gs.
Proof.
  destruct (auto_assign_ok ts) as (cgs & HA & _).
  set (w0 := match w with [] => cgs | _ => w end).
  assert (X : match w with [] => auto_assign ts | _ => Some w end = Some w0).
  { subst w0. destruct w; auto. }
  unfold groups. rewrite X.
  destruct (group_loop_total (fill_groups ts w0 0 0 true "") 0 "" []) as [gs HG]; auto.
  { apply fill_names_ne. discriminate. }
  rewrite HG. exists w0, (fill_groups ts w0 0 0 true ""), gs.
  split; [subst w0; destruct w; congruence|]. split; [intros ->; auto|]. split; auto. split; auto.
  eapply group_loop_inv; [apply fill_names_ne; discriminate| | | |auto|exact HG]; auto.
  constructor; cbn; auto; try (intros; contradiction); intros [|e]; discriminate.
Qed.

(** ** Contiguity *)

Lemma seq_app_inv {A} (f : nat -> A) (g r : list nat) s n :
  g ++ r = seq s n -> g = seq s (length g) /\ r = seq (s + length g) (n - length g) /\ (length g <= n)%nat.
Proof.
  revert s n. induction g as [|x g IH]; intros s n H; cbn in *.
  - rewrite Nat.add_0_r, Nat.sub_0_r. repeat split; auto. lia.
  - destruct n as [|n]; [discriminate|]. cbn in H. inv H. destruct (IH _ _ H2) as (A1 & A2 & A3).
    split; [congruence|]. split; [|lia]. rewrite A2 at 1. f_equal; lia.
Qed.

Lemma adjacent_groups gs : forall s n e e' g g' i,
  concat gs = seq s n -> Forall (fun g => g <> []) gs ->
  nth_error gs e = Some g -> nth_error gs e' = Some g' -> In i g -> In (S i) g' -> e' = e \/ e' = S e.
Proof.
  induction gs as [|g0 gs IH]; intros s n e e' g g' i C F He He' Hi Hi'; [destruct e; discriminate|].
  cbn in C. destruct (seq_app_inv (fun x => x) _ _ _ _ C) as (A1 & A2 & A3). inversion F as [|? ? F1 F2]; subst.
  destruct e as [|e], e' as [|e']; cbn in He, He'.
  - auto.
  - inv He. right. f_equal. destruct e' as [|e']; auto. exfalso.
    rewrite A1 in Hi. apply in_seq in Hi.
    destruct gs as [|g1 gs]; [discriminate|]. cbn in He', A2.
    destruct (seq_app_inv (fun x => x) _ _ _ _ A2) as (B1 & B2 & B3).
    assert (In (S i) (concat gs)) by (apply in_concat; exists g'; split; auto; eapply nth_error_In; eauto).
    rewrite B2 in H. apply in_seq in H. inversion F2 as [|? ? F3 F4]; subst. destruct g1; [congruence|]. cbn in H. lia.
  - exfalso. inv He'. rewrite A1 in Hi'. apply in_seq in Hi'.
    assert (In i (concat gs)) by (apply in_concat; exists g; split; auto; eapply nth_error_In; eauto).
    rewrite A2 in H. apply in_seq in H. lia.
  - destruct (IH _ _ e e' g g' i A2 F2 He He' Hi Hi'); subst; auto.
Qed.

Lemma in_group_unique gs : forall s n e e' i,
  concat gs = seq s n -> in_group gs i e -> in_group gs i e' -> e = e'.
Proof.
  induction gs as [|g0 gs IH]; intros s n e e' i C (g & He & Hi) (g' & He' & Hi'); [destruct e; discriminate|].
  cbn in C. destruct (seq_app_inv (fun x => x) _ _ _ _ C) as (A1 & A2 & A3).
  assert (X : forall e g, nth_error gs e = Some g -> In i g -> In i g0 -> False).
  { intros k h K1 K2 K3. rewrite A1 in K3. apply in_seq in K3.
    assert (In i (concat gs)) by (apply in_concat; exists h; split; auto; eapply nth_error_In; eauto).
    rewrite A2 in H. apply in_seq in H. lia. }
  destruct e as [|e], e' as [|e']; cbn in He, He'; auto.
  - inv He. exfalso. eauto.
  - inv He'. exfalso. eauto.
  - f_equal. eapply IH; eauto; eexists; eauto.
Qed.

Lemma in_group_exists gs n i : concat gs = seq 0 n -> (i < n)%nat -> exists e, in_group gs i e.
Proof.
  intros C L. assert (In i (concat gs)) by (rewrite C; apply in_seq; lia).
  apply in_concat in H as (g & G1 & G2). apply In_nth_error in G1 as [e E]. exists e, g. auto.
Qed.

Lemma nodup_app {A} (l r : list A) : NoDup (l ++ r) -> NoDup l /\ NoDup r.
Proof.
  induction l as [|a l IH]; cbn; intros H; [split; [constructor|auto]|].
  inversion H as [|? ? N1 N2]; subst. destruct (IH N2) as [A1 A2]. split; auto.
  constructor; auto. intros X. apply N1, in_or_app. auto.
Qed.

Lemma nodup_group gs s n e g : concat gs = seq s n -> nth_error gs e = Some g -> NoDup g.
Proof.
  intros C H. assert (N : NoDup (concat gs)) by (rewrite C; apply seq_NoDup).
  apply nth_error_split in H as (l1 & l2 & -> & _). rewrite concat_app in N. cbn in N.
  apply nodup_app in N as [_ N]. now apply nodup_app in N as [N _].
Qed.

Lemma singles gs : forall s n,
  concat gs = seq s n -> Forall (fun g => g <> []) gs ->
  (forall g i, In g gs -> In i g -> In (S i) g -> False) -> gs = map (fun i => [i]) (seq s n).
Proof.
  induction gs as [|g gs IH]; intros s n C F H; cbn in C.
  - destruct n; [reflexivity|discriminate].
  - destruct (seq_app_inv (fun x => x) _ _ _ _ C) as (A1 & A2 & A3). inversion F as [|? ? F1 F2]; subst.
    destruct g as [|x [|y g]]; [congruence| |].
    + cbn in A1. inv A1. cbn in *. destruct n as [|n]; [lia|]. cbn. f_equal.
      replace (s + 1)%nat with (S s) in A2 by lia. replace (S n - 1)%nat with n in A2 by lia.
      apply IH; auto. intros g i G1 G2 G3. apply (H g i); auto.
    + exfalso. cbn in A1. injection A1 as E1 E2 _. subst x y. apply (H (s :: S s :: g) s); cbn; auto.
Qed.

(** ** Statements for Props *)

Lemma groups_partition ts w wl gs :
  groups ts w = Some (wl, gs) ->
  concat gs = seq 0 (length wl) /\ Forall (fun g => g <> []) gs /\
  (forall g a b, In g gs -> In a g -> In b g -> name_of wl a = name_of wl b) /\
  (forall e g g' a b, nth_error gs e = Some g -> nth_error gs (S e) = Some g' -> In a g -> In b g' ->
     name_of wl a <> name_of wl b) /\
  (forall c, In c wl -> cg_group c <> "").
Proof.
  intros H. destruct (groups_spec ts w) as (w0 & wl' & gs' & W1 & W2 & G & F & name & I).
  rewrite H in G. injection G as E1 E2. subst wl' gs'. destruct I as [I1 I2 I3 I4 I5].
  repeat (split; [assumption|]). rewrite F. apply fill_names_ne. discriminate.
Qed.

Lemma groups_fill ts w wl gs i c :
  groups ts w = Some (wl, gs) -> nth_error w i = Some c ->
  exists name, nth_error wl i = Some (cg_with c name (trx_of ts c)
      (if has_ddl ts (trx_of ts c) && (cg_iter c =? 0)%N then 1%N else cg_iter c)) /\
    name <> "" /\ (cg_group c <> "" -> name = cg_group c).
Proof.
  intros H Hc. destruct (groups_spec ts w) as (w0 & wl' & gs' & W1 & W2 & G & F & _).
  rewrite H in G. injection G as E1 E2. subst wl' gs'. rewrite W1 in F by (intros ->; destruct i; discriminate).
  destruct (fill_nth ts w 0 0 true "" i c Hc) as (name & A & B). exists name.
  rewrite <- F in A. split; auto. split; auto.
  apply nth_error_In in A. rewrite F in A. apply fill_names_ne in A; [exact A|discriminate].
Qed.

Lemma groups_unnamed ts w wl gs i j ci cj :
  groups ts w = Some (wl, gs) -> nth_error w i = Some ci -> nth_error w j = Some cj -> i <> j ->
  cg_group ci = "" -> cg_group cj = "" -> runs_ddl ts ci -> name_of wl i <> name_of wl j.
Proof.
  intros H Hi Hj NE Ei Ej D. destruct (groups_spec ts w) as (w0 & wl' & gs' & W1 & W2 & G & F & _).
  rewrite H in G. injection G as E1 E2. subst wl' gs'. rewrite W1 in F by (intros ->; destruct i; discriminate).
  unfold name_of. destruct (groups_fill _ _ _ _ _ _ H Hi) as (ni & Ni & _). destruct (groups_fill _ _ _ _ _ _ H Hj) as (nj & Nj & _).
  apply has_ddl_iff in D.
  assert (X : forall a b ca cb, (a < b)%nat -> nth_error w a = Some ca -> nth_error w b = Some cb ->
     cg_group ca = "" -> cg_group cb = "" -> has_ddl ts (trx_of ts ca) = true \/ has_ddl ts (trx_of ts cb) = true ->
     forall ca' cb', nth_error wl a = Some ca' -> nth_error wl b = Some cb' -> cg_group ca' <> cg_group cb').
  { intros a b ca cb L A B EA EB DD ca' cb' A' B'. rewrite F in A', B'.
    eapply (fill_ddl_unique ts w 0 0 true ""); eauto. discriminate. }
  rewrite Ni, Nj. cbn. destruct (Nat.lt_trichotomy i j) as [L|[L|L]]; [|lia|].
  - intros E. eapply (X i j); eauto. cbn. congruence.
  - intros E. eapply (X j i); eauto. cbn. congruence.
Qed.


Lemma groups_ddl_alone ts w wl gs i c e refs :
  groups ts w = Some (wl, gs) -> nth_error w i = Some c -> cg_group c = "" -> runs_ddl ts c ->
  (forall c', In c' w -> ~ auto_name (cg_group c')) ->
  nth_error gs e = Some refs -> In i refs -> refs = [i].
Proof.
  intros H Hi Ei D NA He HI.
  pose proof (groups_partition _ _ _ _ H) as (P1 & P2 & P3 & P4 & P5).
  assert (ALL : forall j, In j refs -> j = i).
  { intros j Hj. destruct (Nat.eq_dec j i) as [|NE]; auto. exfalso.
    assert (LW : length wl = length w).
    { destruct (groups_spec ts w) as (w0 & wl' & gs' & W1 & W2 & G & F & _).
      rewrite H in G. injection G as E1 E2. subst wl' gs'. rewrite F, fill_length. f_equal. apply W1. intros ->; destruct i; discriminate. }
    assert (LJ : (j < length w)%nat).
    { rewrite <- LW. assert (X : In j (concat gs)) by (apply in_concat; exists refs; split; auto; eapply nth_error_In; eauto).
      rewrite P1 in X. apply in_seq in X. lia. }
    destruct (nth_error w j) as [cj|] eqn:Hcj; [|apply nth_error_None in Hcj; lia].
    assert (EQ : name_of wl i = name_of wl j) by (eapply P3; eauto using nth_error_In).
    destruct (String.eqb_spec (cg_group cj) "") as [Ej|Ej].
    - revert EQ. apply (groups_unnamed ts w wl gs i j c cj); auto.
    - destruct (groups_fill _ _ _ _ _ _ H Hi) as (ni & Ni & _). destruct (groups_fill _ _ _ _ _ _ H Hcj) as (nj & Nj & _ & NJ).
      unfold name_of in EQ. rewrite Ni, Nj in EQ. cbn in EQ. rewrite (NJ Ej) in EQ.
      destruct (groups_spec ts w) as (w0 & wl' & gs' & W1 & W2 & G & F & _).
      rewrite H in G. injection G as E1 E2. subst wl' gs'. rewrite W1 in F by (intros ->; destruct i; discriminate).
      rewrite F in Ni.
      destruct (proj1 (fill_names ts w 0 0 true "" ltac:(discriminate) _ _ _ Hi Ni Ei)) as (n & _ & N2).
      { now apply has_ddl_iff. }
      cbn [cg_group cg_with] in N2. apply (NA cj); [eapply nth_error_In; eauto|]. exists n. left. congruence. }
  pose proof (nodup_group _ _ _ _ _ P1 He) as ND.
  destruct refs as [|x [|y refs]]; [destruct HI| |].
  - f_equal. apply ALL. left; auto.
  - exfalso. inversion ND; subst. apply H2. left. rewrite (ALL x), (ALL y); cbn; auto.
Qed.

Lemma groups_dml_together ts w wl gs i ci cj :
  groups ts w = Some (wl, gs) -> nth_error w i = Some ci -> nth_error w (S i) = Some cj ->
  cg_group ci = "" -> cg_group cj = "" -> ~ runs_ddl ts ci -> ~ runs_ddl ts cj ->
  exists e, in_group gs i e /\ in_group gs (S i) e.
Proof.
  intros H Hi Hj Ei Ej Di Dj.
  pose proof (groups_partition _ _ _ _ H) as (P1 & P2 & P3 & P4 & P5).
  destruct (groups_spec ts w) as (w0 & wl' & gs' & W1 & W2 & G & F & _).
  rewrite H in G. injection G as E1 E2. subst wl' gs'. rewrite W1 in F by (intros ->; destruct i; discriminate).
  assert (LW : length wl = length w) by (rewrite F; apply fill_length).
  destruct (groups_fill _ _ _ _ _ _ H Hi) as (ni & Ni & _). destruct (groups_fill _ _ _ _ _ _ H Hj) as (nj & Nj & _).
  assert (B : forall c, ~ runs_ddl ts c -> has_ddl ts (trx_of ts c) = false).
  { intros c X. destruct (has_ddl ts (trx_of ts c)) eqn:Y; auto. exfalso. apply X. now apply has_ddl_iff. }
  assert (EQ : name_of wl i = name_of wl (S i)).
  { unfold name_of. rewrite Ni, Nj. cbn [option_map]. f_equal.
    pose proof (fill_dml_adjacent ts w 0 0 true "" i) as X. rewrite <- F in X.
    eapply X; eauto. }
  assert (LJ : (S i < length w)%nat) by (apply nth_error_Some; congruence).
  destruct (in_group_exists gs (length wl) i P1) as (e & g & He & Hg); [lia|].
  destruct (in_group_exists gs (length wl) (S i) P1) as (e' & g' & He' & Hg'); [lia|].
  destruct (adjacent_groups gs 0 (length wl) e e' g g' i P1 P2 He He' Hg Hg') as [->| ->].
  - exists e. split; [exists g|exists g']; auto.
  - exfalso. apply (P4 e g g' i (S i)); auto.
Qed.

Lemma auto_workload ts : exists wl gs,
  groups ts [] = Some (wl, gs) /\
  concat (map cg_trx wl) = ts_order ts /\
  gs = map (fun i => [i]) (seq 0 (length wl)) /\
  Forall (fun c => cg_trx c <> [] /\
     ((exists t name, c = cg_with (cg_auto 1 [t]) name [t] 1 /\ ts_ddl ts t = true) \/
      (exists name, c = cg_with (cg_auto 0 []) name (cg_trx c) 0 /\ Forall (fun t => ts_ddl ts t = false) (cg_trx c)))) wl /\
  (forall i a b, nth_error wl i = Some a -> nth_error wl (S i) = Some b ->
     (exists t, In t (cg_trx a ++ cg_trx b) /\ ts_ddl ts t = true)).
Proof.
  destruct (groups_spec ts []) as (w0 & wl & gs & _ & W2 & G & F & nm & I).
  destruct (auto_assign_ok ts) as (cgs & A & prev & B1 & B2 & B3 & B4).
  assert (w0 = cgs) as -> by (specialize (W2 eq_refl); congruence).
  exists wl, gs. split; auto.
  pose proof (groups_partition _ _ _ _ G) as (P1 & P2 & P3 & P4 & P5).
  assert (FN : forall i c, nth_error cgs i = Some c -> exists name, nth_error wl i = Some (cg_with c name (cg_trx c)
      (if has_ddl ts (cg_trx c) && (cg_iter c =? 0)%N then 1%N else cg_iter c))).
  { intros i c Hc. destruct (fill_nth ts cgs 0 0 true "" i c Hc) as (name & X & _). rewrite F. exists name.
    rewrite X. rewrite Forall_forall in B2. destruct (B2 c (nth_error_In _ _ Hc)) as [NE _].
    unfold trx_of. destruct (cg_trx c); [congruence|reflexivity]. }
  assert (LW : length wl = length cgs) by (rewrite F; apply fill_length).
  assert (TRX : map cg_trx wl = map cg_trx cgs).
  { apply list_ext. intros i. rewrite !nth_error_map.
    destruct (nth_error cgs i) as [c|] eqn:E.
    - destruct (FN i c E) as [name ->]. reflexivity.
    - apply nth_error_None in E. assert (nth_error wl i = None) as -> by (apply nth_error_None; lia). reflexivity. }
  split; [rewrite TRX; auto|].
  assert (ADJ : forall i a b, nth_error wl i = Some a -> nth_error wl (S i) = Some b ->
     has_ddl ts (cg_trx a) = true \/ has_ddl ts (cg_trx b) = true).
  { intros i a b Ha Hb.
    destruct (nth_error cgs i) as [ca|] eqn:EA; [|apply nth_error_None in EA; assert (i < length wl)%nat by (apply nth_error_Some; congruence); lia].
    destruct (nth_error cgs (S i)) as [cb|] eqn:EB; [|apply nth_error_None in EB; assert (S i < length wl)%nat by (apply nth_error_Some; congruence); lia].
    destruct (FN _ _ EA) as [na NA]. destruct (FN _ _ EB) as [nb NB].
    assert (XA : cg_trx a = cg_trx ca) by (rewrite NA in Ha; inv Ha; reflexivity).
    assert (XB : cg_trx b = cg_trx cb) by (rewrite NB in Hb; inv Hb; reflexivity).
    rewrite XA, XB. eauto. }
  split; [|split].
  - apply singles; auto. intros g i HG Hi Hi'.
    assert (EQ := P3 g i (S i) HG Hi Hi').
    assert (L : (S i < length wl)%nat).
    { assert (X : In (S i) (concat gs)) by (apply in_concat; exists g; auto). rewrite P1 in X. apply in_seq in X. lia. }
    destruct (nth_error wl i) as [a|] eqn:EA; [|apply nth_error_None in EA; lia].
    destruct (nth_error wl (S i)) as [b|] eqn:EB; [|apply nth_error_None in EB; lia].
    destruct (nth_error cgs i) as [ca|] eqn:CA; [|apply nth_error_None in CA; lia].
    destruct (nth_error cgs (S i)) as [cb|] eqn:CB; [|apply nth_error_None in CB; lia].
    destruct (FN _ _ CA) as [na NA]. destruct (FN _ _ CB) as [nb NB].
    assert (UN : forall c, In c cgs -> cg_group c = "" /\ trx_of ts c = cg_trx c).
    { intros c IC. rewrite Forall_forall in B2. destruct (B2 c IC) as [NE [(t & -> & _)|[-> _]]]; split; auto.
      unfold trx_of. cbn. cbn in NE. destruct (cg_trx c); congruence. }
    destruct (UN ca (nth_error_In _ _ CA)) as [UA TA]. destruct (UN cb (nth_error_In _ _ CB)) as [UB TB].
    unfold name_of in EQ. rewrite EA, EB in EQ. cbn in EQ. injection EQ as EQ.
    revert EQ. rewrite F in EA, EB.
    eapply (fill_ddl_unique ts cgs 0 0 true "" ltac:(discriminate) i (S i)); eauto.
    rewrite TA, TB. destruct (ADJ i a b) as [X|X]; [now rewrite F|now rewrite F| |].
    + left. rewrite F, EA in NA. inv NA. exact X.
    + right. rewrite F, EB in NB. inv NB. exact X.
  - apply Forall_forall. intros c IC. apply In_nth_error in IC as [i Hc].
    destruct (nth_error cgs i) as [c0|] eqn:C0; [|apply nth_error_None in C0; assert (i < length wl)%nat by (apply nth_error_Some; congruence); lia].
    destruct (FN _ _ C0) as [n N]. rewrite Hc in N. injection N as EC.
    rewrite Forall_forall in B2. destruct (B2 c0 (nth_error_In _ _ C0)) as [NE D].
    assert (TC : cg_trx c = cg_trx c0) by (rewrite EC; reflexivity). rewrite TC. split; auto.
    destruct D as [(t & E0 & T)|[E0 T]].
    + left. exists t, n. split; auto. rewrite EC, E0. cbn. rewrite T. reflexivity.
    + right. exists n. split; auto. rewrite EC.
      assert (HD : has_ddl ts (cg_trx c0) = false).
      { destruct (has_ddl ts (cg_trx c0)) eqn:Y; auto. apply has_ddl_iff in Y as (t & T1 & T2).
        rewrite Forall_forall in T. rewrite T in T2; auto. }
      rewrite HD, E0. reflexivity.
  - intros i a b Ha Hb. destruct (ADJ i a b Ha Hb) as [X|X]; apply has_ddl_iff in X as (t & T1 & T2);
      exists t; split; auto; apply in_or_app; auto.
Qed.
