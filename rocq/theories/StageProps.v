(** Running a stage: the properties. *)
From Coq Require FinFun.
From Verif Require Import Prelude StageModel.
#[local] Open Scope list_scope.

(** States reached from the beginning, with what has happened. *)
Inductive reach (groups : list nat) : state -> list event -> Prop :=
| reach_init : reach groups init []
| reach_step s tr a s' es : reach groups s tr -> step groups s a = Some (s', es) -> reach groups s' (tr ++ es).

Lemma run_reach groups l : forall s s' es tr, reach groups s tr -> run groups s l = Some (s', es) -> reach groups s' (tr ++ es).
Proof.
  induction l as [|a l IH]; cbn; intros s s' es tr R H.
  - injection H as <- <-. now rewrite app_nil_r.
  - destruct (step groups s a) as [[s1 e1]|] eqn:E; [|discriminate]. destruct (run groups s1 l) as [[s2 e2]|] eqn:E2; [|discriminate].
    injection H as <- <-. rewrite app_assoc. apply (IH s1); [|exact E2]. eapply reach_step; eauto.
Qed.

(** * Lemmas *)
Lemma client_eqb_eq a b : client_eqb a b = true <-> a = b.
Proof.
  destruct a as [g i], b as [g' i']. unfold client_eqb. cbn. rewrite andb_true_iff, !Nat.eqb_eq. split; [intros [-> ->]|intros [= -> ->]]; auto.
Qed.
Lemma existsb_in c l : existsb (client_eqb c) l = true <-> In c l.
Proof.
  rewrite existsb_exists. split; [intros (x & Hx & E); apply client_eqb_eq in E; now subst|intros H; exists c; split; [exact H|now apply client_eqb_eq]].
Qed.
Lemma del_length c l : In c l -> S (List.length (del c l)) = List.length l.
Proof.
  induction l as [|x l IH]; [easy|]. cbn. destruct (client_eqb x c) eqn:E; [reflexivity|]. intros [->|H]; [|cbn; now rewrite IH].
  assert (client_eqb c c = true) by now apply client_eqb_eq. congruence.
Qed.
Lemma del_incl c l x : In x (del c l) -> In x l.
Proof. induction l as [|y l IH]; [easy|]. cbn. destruct (client_eqb y c); [now right|]. intros [->|H]; auto. Qed.
Lemma del_other c l x : In x l -> x = c \/ In x (del c l).
Proof.
  induction l as [|y l IH]; [easy|]. cbn. destruct (client_eqb y c) eqn:E.
  - apply client_eqb_eq in E. intros [->|H]; auto.
  - intros [->|H]; [right; now left|]. destruct (IH H); [now left|right; now right].
Qed.

Definition is_start (e : event) : list client := match e with EStart c => [c] | _ => [] end.
Definition starts (tr : list event) : list client := flat_map is_start tr.
Lemma starts_app a b : starts (a ++ b) = starts a ++ starts b.
Proof. unfold starts. apply flat_map_app. Qed.
Lemma in_starts c tr : In c (starts tr) <-> In (EStart c) tr.
Proof.
  unfold starts. rewrite in_flat_map. split; [intros ([] & H & Hc); cbn in Hc; try easy; destruct Hc as [->|[]]; exact H|].
  intros H. exists (EStart c). split; [exact H|now left].
Qed.

Section Inv.
Variable groups : list nat.
Definition size (g : nat) : nat := nth g groups 0.
(** All clients of the first [g] exec groups. *)
Fixpoint upto (g : nat) : list client := match g with O => [] | S g' => upto g' ++ clients g' (size g') end.

Lemma in_upto c g : In c (upto g) <-> (fst c < g /\ snd c < size (fst c))%nat.
Proof.
  induction g as [|g IH]; cbn; [lia|]. rewrite in_app_iff, IH. unfold clients. rewrite in_map_iff. destruct c as [h i]. cbn.
  split.
  - intros [?|(x & [= -> ->] & Hx)]; [lia|]. apply in_seq in Hx. lia.
  - intros [H1 H2]. destruct (Nat.eq_dec h g) as [->|]; [right; exists i; split; [reflexivity|apply in_seq; lia]|left; lia].
Qed.
Lemma nodup_app {A} (a b : list A) : NoDup a -> NoDup b -> (forall x, In x a -> ~ In x b) -> NoDup (a ++ b).
Proof.
  induction 1 as [|x a Hx H IH]; cbn; [auto|]. intros Hb Hd. constructor; [rewrite in_app_iff; intros [?|Hi]; [easy|]; apply (Hd x); auto; now left|].
  apply IH; [exact Hb|]. intros y Hy. apply Hd. now right.
Qed.
Lemma nodup_clients g n : NoDup (clients g n).
Proof. apply FinFun.Injective_map_NoDup; [intros x y [=]; auto|apply seq_NoDup]. Qed.
Lemma nodup_upto g : NoDup (upto g).
Proof.
  induction g as [|g IH]; cbn; [constructor|]. apply nodup_app; [exact IH|apply nodup_clients|].
  intros x Hx Hc. apply in_upto in Hx. unfold clients in Hc. apply in_map_iff in Hc as (i & <- & _). cbn in Hx. lia.
Qed.

Definition live (s : state) : nat := (List.length (s_run s) + List.length (s_send s) + List.length (s_chan s))%nat.

(** Which clients have been started. *)
Definition started (s : state) (tr : list event) : Prop :=
  match s_pc s with
  | Head g => (g <= List.length groups)%nat /\ starts tr = upto g
  | Start g todo => (g < List.length groups)%nat /\ exists pre, clients g (size g) = pre ++ todo /\ starts tr = upto g ++ pre
  | Wait g n | Spin g n _ => (g < List.length groups)%nat /\ starts tr = upto (S g)
  | Ended => exists g, (g <= List.length groups)%nat /\ starts tr = upto g
      /\ (s_stopped s = false -> g = List.length groups)
  end.

Record inv (s : state) (tr : list event) : Prop := {
  i_started : started s tr;
  i_run : forall c, In c (s_run s) -> In (EStart c) tr;
  i_fin : forall c, In (EStart c) tr -> In c (s_run s) \/ In (EFinish c) tr;
  i_live : s_elapsed s = false -> s_stopped s = false ->
    match s_pc s with
    | Head g => live s = 0%nat
    | Start g todo => (live s + List.length todo = size g)%nat /\ (forall c, In c (s_run s) -> fst c = g)
    | Wait g n => live s = n
    | Spin _ _ _ => False
    | Ended => live s = 0%nat
    end }.

Lemma size_nth g n : nth_error groups g = Some n -> size g = n /\ (g < List.length groups)%nat.
Proof. intros H. split; [now apply nth_error_nth|apply nth_error_Some; congruence]. Qed.

Lemma inv_step s tr a s' es : inv s tr -> step groups s a = Some (s', es) -> inv s' (tr ++ es).
Proof.
  intros [I1 I2 I3 I4] H. destruct a; cbn in H.
  - unfold stage_step in H. destruct (s_pc s) as [g|g [|c todo]|g [|n]|g n ms|] eqn:Ep; try discriminate H.
    + (* Head *)
      unfold started in I1. rewrite Ep in I1. destruct I1 as [L S1].
      destruct (nth_error groups g) as [n|] eqn:En.
      * destruct (size_nth _ _ En) as [Es Eg]. destruct (s_stopped s) eqn:Est; injection H as <- <-.
        -- split.
           ++ unfold started. cbn. exists g. rewrite starts_app. cbn. rewrite app_nil_r. split; [exact L|]. split; [exact S1|congruence].
           ++ intros c Hc. apply in_app_iff. left. now apply I2.
           ++ intros c Hc. apply in_app_iff in Hc as [Hc|[Hc|[]]]; [|discriminate]. destruct (I3 _ Hc); [now left|right; apply in_app_iff; now left].
           ++ cbn. congruence.
        -- rewrite app_nil_r. split; auto.
           ++ unfold started. cbn. split; [exact Eg|]. exists []. cbn. rewrite Es, app_nil_r. auto.
           ++ cbn. intros He Hs. specialize (I4 He eq_refl). unfold live in *. cbn. unfold clients. rewrite map_length, seq_length.
              split; [lia|]. intros c Hc. destruct (s_run s); [easy|]. cbn in I4. lia.
      * injection H as <- <-. apply nth_error_None in En. split.
        -- unfold started. cbn. exists g. rewrite starts_app. cbn. rewrite app_nil_r. split; [exact L|]. split; [exact S1|lia].
        -- intros c Hc. apply in_app_iff. left. now apply I2.
        -- intros c Hc. apply in_app_iff in Hc as [Hc|[Hc|[]]]; [|discriminate]. destruct (I3 _ Hc); [now left|right; apply in_app_iff; now left].
        -- cbn. exact I4.
    + (* Start [] *)
      unfold started in I1. rewrite Ep in I1. destruct I1 as [L (pre & Ec & S1)].
      destruct (nth_error groups g) as [n|] eqn:En; [|discriminate]. destruct (size_nth _ _ En) as [Es Eg]. injection H as <- <-.
      rewrite app_nil_r in *. split; auto.
      * unfold started. cbn. split; [exact L|]. now rewrite Ec.
      * cbn. intros He Hs. destruct (I4 He Hs) as [H1 _]. cbn in H1. unfold live in *. cbn. lia.
    + (* Start *)
      unfold started in I1. rewrite Ep in I1. destruct I1 as [L (pre & Ec & S1)]. injection H as <- <-. split.
      * unfold started. cbn. split; [exact L|]. exists (pre ++ [c]). rewrite <- app_assoc. split; [exact Ec|].
        rewrite starts_app, S1. cbn. now rewrite <- app_assoc.
      * cbn. intros x Hx. apply in_app_iff in Hx as [Hx|[->|[]]]; apply in_app_iff; [left; now apply I2|right; now left].
      * cbn. intros x Hx. apply in_app_iff in Hx as [Hx|[[= ->]|[]]].
        -- destruct (I3 _ Hx); [left; apply in_app_iff; now left|right; apply in_app_iff; now left].
        -- left. apply in_app_iff. right. now left.
      * cbn. intros He Hs. destruct (I4 He Hs) as [H1 H2]. unfold live in *. cbn in *. rewrite app_length. cbn. split; [lia|].
        intros x Hx. apply in_app_iff in Hx as [Hx|[<-|[]]]; [auto|].
        assert (Hc : In c (clients g (size g))) by (rewrite Ec; apply in_app_iff; right; now left).
        unfold clients in Hc. apply in_map_iff in Hc as (i & <- & _). reflexivity.
    + (* Wait 0 *)
      unfold started in I1. rewrite Ep in I1. injection H as <- <-. rewrite app_nil_r. split; auto.
    + (* Wait (S n) *)
      unfold started in I1. rewrite Ep in I1. destruct ctx.
      * destruct (s_elapsed s || s_stopped s) eqn:Eb; [|discriminate]. injection H as <- <-. rewrite app_nil_r. split; auto.
        cbn. intros He Hs. rewrite He, Hs in Eb. discriminate.
      * destruct (s_chan s) as [|c l] eqn:Ech; [discriminate|]. injection H as <- <-. split.
        -- unfold started. cbn. rewrite starts_app. cbn. now rewrite app_nil_r.
        -- cbn. intros x Hx. apply in_app_iff. left. now apply I2.
        -- intros x Hc. apply in_app_iff in Hc as [Hc|[Hc|[]]]; [|discriminate]. destruct (I3 _ Hc); [now left|right; apply in_app_iff; now left].
        -- cbn. intros He Hs. specialize (I4 He Hs). unfold live in *. cbn. rewrite Ech in I4. cbn in I4. lia.
    + (* Spin *)
      unfold started in I1. rewrite Ep in I1.
      assert (Hn : s_elapsed s = true \/ s_stopped s = true).
      { destruct (s_elapsed s); [auto|]. destruct (s_stopped s); [auto|]. exfalso. now apply I4. }
      assert (K : forall p, match p with Head h => h = S g | Spin h _ _ => h = g | _ => False end -> inv (with_pc s p) tr).
      { intros p Hp. split; auto.
        - unfold started. cbn. destruct p; try easy; subst; [|exact I1]. destruct I1. split; [lia|assumption].
        - cbn. intros He Hs. destruct Hn; congruence. }
      destruct n as [|n], ms as [|ms]; try (injection H as <- <-; rewrite app_nil_r; now apply K).
      destruct (s_chan s) as [|c l] eqn:Ech; [injection H as <- <-; rewrite app_nil_r; now apply K|]. injection H as <- <-. split.
      * unfold started. cbn. rewrite starts_app. cbn. now rewrite app_nil_r.
      * cbn. intros x Hx. apply in_app_iff. left. now apply I2.
      * intros x Hc. apply in_app_iff in Hc as [Hc|[Hc|[]]]; [|discriminate]. destruct (I3 _ Hc); [now left|right; apply in_app_iff; now left].
      * cbn. intros He Hs. destruct Hn; congruence.
  - destruct (existsb (client_eqb c) (s_run s)) eqn:E; [|discriminate]. apply existsb_in in E. injection H as <- <-. split.
    + unfold started in *. cbn. rewrite starts_app. cbn. now rewrite app_nil_r.
    + cbn. intros x Hx. apply in_app_iff. left. apply I2. eapply del_incl, Hx.
    + cbn. intros x Hx. apply in_app_iff in Hx as [Hx|[Hx|[]]]; [|discriminate]. destruct (I3 _ Hx) as [Hr|Hf].
      * destruct (del_other c _ _ Hr) as [->|Hd]; [right; apply in_app_iff; right; now left|now left].
      * right. apply in_app_iff. now left.
    + cbn. intros He Hs. specialize (I4 He Hs). apply del_length in E as El. unfold live in *. cbn. rewrite app_length. cbn.
      destruct (s_pc s); try lia. destruct I4 as [H1 H2]. split; [lia|]. intros x Hx. apply H2. eapply del_incl, Hx.
  - destruct (existsb (client_eqb c) (s_send s) && Nat.ltb (List.length (s_chan s)) 1) eqn:E; [|discriminate].
    apply andb_true_iff in E as [E _]. apply existsb_in in E. injection H as <- <-. rewrite app_nil_r. split; auto.
    cbn. intros He Hs. specialize (I4 He Hs). apply del_length in E as El. unfold live in *. cbn. rewrite app_length. cbn.
    destruct (s_pc s); try lia. destruct I4 as [H1 H2]. split; [lia|exact H2].
  - destruct (s_elapsed s); [discriminate|]. injection H as <- <-. rewrite app_nil_r. split; auto. discriminate.
  - destruct (s_stopped s) eqn:Est; [discriminate|]. injection H as <- <-. rewrite app_nil_r. split; auto.
    + unfold started in *. cbn in *. destruct (s_pc s); auto. destruct I1 as (g & H1 & H2 & H3). exists g. repeat split; auto; discriminate.
    + discriminate.
Qed.

Lemma reach_inv s tr : reach groups s tr -> inv s tr.
Proof.
  induction 1; [|eapply inv_step; eauto]. split; cbn; try easy. unfold started. cbn. split; [lia|reflexivity].
Qed.

(** After finch is stopped only the group being started goes on starting. *)
Definition starting (s : state) : list client := match s_pc s with Start _ todo => todo | _ => [] end.
Lemma stopped_step s a s' es : s_stopped s = true -> step groups s a = Some (s', es) ->
  s_stopped s' = true /\ forall c, In (EStart c) es \/ In c (starting s') -> In c (starting s).
Proof.
  intros Hs H. destruct a; cbn in H.
  - unfold stage_step in H. unfold starting. destruct (s_pc s) as [g|g [|c todo]|g [|n]|g n ms|]; try discriminate H.
    + rewrite Hs in H. destruct (nth_error groups g); injection H as <- <-; cbn; (split; [exact Hs|]); intros c [[|]|[]]; easy.
    + destruct (nth_error groups g); [|discriminate]. injection H as <- <-. cbn. split; [exact Hs|]. intros c [[]|[]].
    + injection H as <- <-. cbn. split; [exact Hs|]. intros x [[[= ->]|[]]|Hx]; auto.
    + injection H as <- <-. cbn. split; [exact Hs|]. intros c [[]|[]].
    + destruct ctx; [destruct (s_elapsed s || s_stopped s); [|discriminate]|destruct (s_chan s); [discriminate|]]; injection H as <- <-; cbn;
        (split; [exact Hs|]); intros x [Hx|[]]; [easy|]; destruct Hx as [|[]]; discriminate.
    + destruct n, ms; [| | |destruct (s_chan s)]; injection H as <- <-; cbn; (split; [exact Hs|]); intros x [Hx|[]]; try easy. destruct Hx as [|[]]; discriminate.
  - destruct (existsb _ _); [|discriminate]. injection H as <- <-. cbn. split; [exact Hs|]. unfold starting. cbn. intros x [[Hx|[]]|Hx]; [discriminate|exact Hx].
  - destruct (existsb _ _ && _); [|discriminate]. injection H as <- <-. cbn. split; [exact Hs|]. unfold starting. cbn. intros x [[]|Hx]; exact Hx.
  - destruct (s_elapsed s); [discriminate|]. injection H as <- <-. cbn. split; [exact Hs|]. unfold starting. cbn. intros x [[]|Hx]; exact Hx.
  - rewrite Hs in H. discriminate.
Qed.
Lemma stopped_run l : forall s s' es, s_stopped s = true -> run groups s l = Some (s', es) ->
  forall c, In (EStart c) es \/ In c (starting s') -> In c (starting s).
Proof.
  induction l as [|a l IH]; cbn; intros s s' es Hs H c Hc.
  - injection H as <- <-. now destruct Hc.
  - destruct (step groups s a) as [[s1 e1]|] eqn:E; [|discriminate]. destruct (run groups s1 l) as [[s2 e2]|] eqn:E2; [|discriminate].
    injection H as <- <-. destruct (stopped_step s a s1 e1 Hs E) as [Hs1 Hc1]. apply Hc1. rewrite in_app_iff in Hc.
    destruct Hc as [[Hc|Hc]|Hc]; [now left| |]; right; eapply IH; eauto.
Qed.

(** How many steps are left. *)
Definition rest (l : list nat) : nat := list_sum (map (fun n => 4 * n + 14) l).
Lemma rest_cons n l : rest (n :: l) = (4 * n + 14 + rest l)%nat.
Proof. reflexivity. Qed.
Definition left_of (s : state) : nat :=
  (match s_pc s with
   | Head g => 1 + rest (skipn g groups)
   | Start g todo => 14 + 4 * List.length todo + rest (skipn (S g) groups)
   | Wait g n => 13 + rest (skipn (S g) groups)
   | Spin g n ms => 2 + ms + rest (skipn (S g) groups)
   | Ended => 0
   end + 3 * List.length (s_run s) + 2 * List.length (s_send s) + List.length (s_chan s)
   + (if s_elapsed s then 0 else 1) + (if s_stopped s then 0 else 1))%nat.

Lemma skipn_nth {A} (l : list A) g x : nth_error l g = Some x -> skipn g l = x :: skipn (S g) l.
Proof.
  revert g. induction l as [|y l IH]; intros [|g]; cbn; try discriminate; [now intros [= ->]|]. intros H. rewrite (IH g H). reflexivity.
Qed.

Lemma left_step s tr a s' es : inv s tr -> step groups s a = Some (s', es) -> (left_of s' < left_of s)%nat.
Proof.
  intros I H. destruct a; cbn in H.
  - unfold stage_step in H. unfold left_of. destruct (s_pc s) as [g|g [|c todo]|g [|n]|g n ms|] eqn:Ep; try discriminate H.
    + destruct (nth_error groups g) as [n|] eqn:En.
      * rewrite (skipn_nth _ _ _ En), rest_cons. destruct (s_stopped s) eqn:Est; injection H as <- <-; cbn -[skipn Nat.mul rest]; rewrite ?Est.
        -- lia.
        -- unfold clients. rewrite map_length, seq_length. lia.
      * injection H as <- <-. cbn -[skipn Nat.mul rest]. lia.
    + destruct (nth_error groups g); [|discriminate]. injection H as <- <-. cbn -[skipn Nat.mul rest]. lia.
    + injection H as <- <-. cbn -[skipn Nat.mul rest]. rewrite app_length. cbn [List.length]. lia.
    + injection H as <- <-. cbn -[skipn Nat.mul rest]. lia.
    + destruct ctx; [destruct (s_elapsed s || s_stopped s); [|discriminate]|destruct (s_chan s); [discriminate|]]; injection H as <- <-; cbn -[skipn Nat.mul rest]; lia.
    + destruct n, ms; [| | |destruct (s_chan s) eqn:Ech]; injection H as <- <-; cbn -[skipn Nat.mul rest]; rewrite ?Ech; cbn [List.length]; lia.
  - destruct (existsb (client_eqb c) (s_run s)) eqn:E; [|discriminate]. apply existsb_in, del_length in E. injection H as <- <-.
    unfold left_of. cbn -[skipn Nat.mul rest]. rewrite app_length. cbn [List.length]. lia.
  - destruct (existsb (client_eqb c) (s_send s) && Nat.ltb (List.length (s_chan s)) 1) eqn:E; [|discriminate].
    apply andb_true_iff in E as [E _]. apply existsb_in, del_length in E. injection H as <- <-.
    unfold left_of. cbn -[skipn Nat.mul rest]. rewrite app_length. cbn [List.length]. lia.
  - destruct (s_elapsed s) eqn:E; [discriminate|]. injection H as <- <-. unfold left_of. rewrite E. cbn -[skipn Nat.mul rest]. lia.
  - destruct (s_stopped s) eqn:E; [discriminate|]. injection H as <- <-. unfold left_of. rewrite E. cbn -[skipn Nat.mul rest]. lia.
Qed.

(** At every moment before the end Stage.Run or a client can go on. *)
Lemma goes_on s tr : inv s tr -> s_elapsed s = false -> s_stopped s = false -> s_pc s <> Ended ->
  exists a s' es, step groups s a = Some (s', es) /\ a <> AElapse /\ a <> AStop.
Proof.
  intros [I1 I2 I3 I4] He Hs Hp. specialize (I4 He Hs). unfold started in I1. destruct (s_pc s) as [g|g [|c todo]|g [|n]|g n ms|] eqn:Ep.
  - exists (AStage false). cbn. unfold stage_step. rewrite Ep, Hs. destruct (nth_error groups g); do 2 eexists; (split; [reflexivity|easy]).
  - exists (AStage false). cbn. unfold stage_step. rewrite Ep. destruct I1 as [L _]. apply nth_error_Some in L. destruct (nth_error groups g); [|easy].
    do 2 eexists. split; [reflexivity|easy].
  - exists (AStage false). cbn. unfold stage_step. rewrite Ep. do 2 eexists. split; [reflexivity|easy].
  - exists (AStage false). cbn. unfold stage_step. rewrite Ep. do 2 eexists. split; [reflexivity|easy].
  - unfold live in I4. destruct (s_chan s) as [|c l] eqn:Ec.
    + destruct (s_send s) as [|c l] eqn:Es.
      * destruct (s_run s) as [|c l] eqn:Er; [discriminate|]. exists (AFinish c). cbn. rewrite Er. cbn.
        assert (X : client_eqb c c = true) by now apply client_eqb_eq. rewrite X. cbn. do 2 eexists. split; [reflexivity|easy].
      * exists (ASend c). cbn. rewrite Es, Ec. cbn. assert (X : client_eqb c c = true) by now apply client_eqb_eq. rewrite X. cbn. do 2 eexists. split; [reflexivity|easy].
    + exists (AStage false). cbn. unfold stage_step. rewrite Ep, Ec. do 2 eexists. split; [reflexivity|easy].
  - destruct I4.
  - easy.
Qed.
End Inv.

(** * C57 *)
(** A client starts only after all clients of all previous exec groups have finished, unless the
    stage's runtime has elapsed or finch was stopped. *)
Theorem C57_order : forall groups s tr a s' es g i, reach groups s tr -> step groups s a = Some (s', es) ->
  In (EStart (g, i)) es -> s_elapsed s = false -> s_stopped s = false ->
  forall g' i', (g' < g)%nat -> (i' < nth g' groups 0)%nat -> In (EFinish (g', i')) tr.
Proof.
  intros groups s tr a s' es g i R H Hin He Hs g' i' Hg Hi. apply reach_inv in R as [I1 I2 I3 I4]. specialize (I4 He Hs).
  assert (X : exists todo, s_pc s = Start g todo).
  { destruct a; cbn in H.
    - unfold stage_step in H. unfold started in I1. destruct (s_pc s) as [h|h [|c todo]|h [|n]|h n ms|] eqn:Ep; try discriminate H.
      + destruct (nth_error groups h); [destruct (s_stopped s)|]; injection H as <- <-; cbn in Hin; intuition discriminate.
      + destruct (nth_error groups h); [|discriminate]; injection H as <- <-; destruct Hin.
      + injection H as <- <-. destruct Hin as [[= ->]|[]]. destruct I1 as [_ (pre & Ec & _)].
        assert (Hc : In (g, i) (clients h (size groups h))) by (rewrite Ec; apply in_app_iff; right; now left).
        unfold clients in Hc. apply in_map_iff in Hc as (j & [= -> _] & _). eauto.
      + injection H as <- <-. destruct Hin.
      + destruct ctx; [destruct (s_elapsed s || s_stopped s); [|discriminate]|destruct (s_chan s); [discriminate|]]; injection H as <- <-; cbn in Hin; intuition discriminate.
      + destruct I4.
    - destruct (existsb _ _); [|discriminate]. injection H as <- <-. cbn in Hin. intuition discriminate.
    - destruct (existsb _ _ && _); [|discriminate]. injection H as <- <-. destruct Hin.
    - destruct (s_elapsed s); [discriminate|]. injection H as <- <-. destruct Hin.
    - destruct (s_stopped s); [discriminate|]. injection H as <- <-. destruct Hin. }
  destruct X as [todo Ep]. unfold started in I1. rewrite Ep in *. destruct I1 as [_ (pre & Ec & S1)]. destruct I4 as [_ H4].
  destruct (I3 (g', i')) as [Hr|Hf]; [|specialize (H4 _ Hr); cbn in H4; lia|exact Hf].
  apply in_starts. rewrite S1. apply in_app_iff. left. apply in_upto. cbn. auto.
Qed.
Example C57_order_ex : exists s tr s', reach [2; 1]%nat s tr /\ step [2; 1]%nat s (AStage false) = Some (s', [EStart (1, 0)%nat])
  /\ s_elapsed s = false /\ s_stopped s = false.
Proof.
  set (l := [AStage false; AStage false; AStage false; AStage false; AFinish (0, 1); ASend (0, 1); AFinish (0, 0); AStage false; ASend (0, 0);
             AStage false; AStage false; AStage false]%nat).
  destruct (run [2; 1]%nat init l) as [[s tr]|] eqn:E; [|vm_compute in E; discriminate].
  assert (R : reach [2; 1]%nat s tr) by exact (run_reach _ l init s tr [] (reach_init _) E).
  vm_compute in E. injection E as <- <-. do 3 eexists. split; [exact R|]. split; [vm_compute; reflexivity|]. auto.
Qed.

(** After finch was stopped no client starts but those of the exec group being started just then. *)
Theorem C57_stop : forall groups s tr l s' es c, reach groups s tr -> s_stopped s = true ->
  run groups s l = Some (s', es) -> In (EStart c) es ->
  match s_pc s with Start g todo => In c todo /\ fst c = g | _ => False end.
Proof.
  intros groups s tr l s' es c R Hs H Hin. pose proof (stopped_run groups l s s' es Hs H c (or_introl Hin)) as X.
  unfold starting in X. apply reach_inv in R as [I1 _ _ _]. unfold started in I1. destruct (s_pc s); try easy. split; [exact X|].
  destruct I1 as [_ (pre & Ec & _)]. assert (Hc : In c (clients g (size groups g))) by (rewrite Ec; apply in_app_iff; now right).
  unfold clients in Hc. apply in_map_iff in Hc as (j & <- & _). reflexivity.
Qed.
Example C57_stop_ex : exists s tr s', reach [1; 1]%nat s tr /\ s_stopped s = true /\ s_pc s = Wait 0 1
  /\ run [1; 1]%nat s [AStage true; AFinish (0, 0); ASend (0, 0); AStage true; AStage true; AStage true]%nat
     = Some (s', [EFinish (0, 0); ECount (0, 0); EEnd]%nat).
Proof.
  destruct (run [1; 1]%nat init [AStage false; AStage false; AStage false; AStop]) as [[s tr]|] eqn:E; [|vm_compute in E; discriminate].
  assert (R : reach [1; 1]%nat s tr) by exact (run_reach _ _ init s tr [] (reach_init _) E).
  vm_compute in E. injection E as <- <-. do 3 eexists. split; [exact R|]. split; [reflexivity|]. split; [reflexivity|]. vm_compute. reflexivity.
Qed.

(** No client is started twice, and when Stage.Run ends before the runtime elapsed and finch was
    stopped every client has been started and has finished. *)
Theorem C57_all : forall groups s tr, reach groups s tr ->
  NoDup (starts tr)
  /\ (s_pc s = Ended -> s_elapsed s = false -> s_stopped s = false ->
      forall g i, (i < nth g groups 0)%nat -> In (EStart (g, i)) tr /\ In (EFinish (g, i)) tr).
Proof.
  intros groups s tr R. apply reach_inv in R as [I1 I2 I3 I4]. split.
  - unfold started in I1. destruct (s_pc s); [|destruct I1 as [_ (pre & Ec & ->)]| | |].
    + destruct I1 as [_ ->]. apply nodup_upto.
    + pose proof (nodup_upto groups (S g)) as N. cbn in N. rewrite Ec, app_assoc in N. revert N. generalize (upto groups g ++ pre) as x.
      induction x as [|y x IH]; cbn; intros N; [constructor|]. inv N. constructor; [intros Hy; apply H1; apply in_app_iff; now left|auto].
    + destruct I1 as [_ ->]. apply nodup_upto.
    + destruct I1 as [_ ->]. apply nodup_upto.
    + destruct I1 as (g & _ & -> & _). apply nodup_upto.
  - intros Ep He Hs g i Hi. specialize (I4 He Hs). unfold started in I1. rewrite Ep in *. destruct I1 as (g0 & _ & S1 & Hg). specialize (Hg Hs). subst g0.
    assert (Hst : In (EStart (g, i)) tr).
    { apply in_starts. rewrite S1. apply in_upto. cbn. split; [|exact Hi]. destruct (Nat.lt_ge_cases g (List.length groups)) as [|L]; [assumption|].
      rewrite nth_overflow in Hi by exact L. lia. }
    split; [exact Hst|]. destruct (I3 _ Hst) as [Hr|Hf]; [|exact Hf]. unfold live in I4. destruct (s_run s); [easy|]. cbn in I4. lia.
Qed.
Example C57_all_ex : exists s tr, reach [1; 1]%nat s tr /\ s_pc s = Ended /\ s_elapsed s = false /\ s_stopped s = false
  /\ starts tr = [(0, 0); (1, 0)]%nat.
Proof.
  set (l := [AStage false; AStage false; AStage false; AFinish (0, 0); ASend (0, 0); AStage false; AStage false;
             AStage false; AStage false; AStage false; AFinish (1, 0); ASend (1, 0); AStage false; AStage false; AStage false]%nat).
  destruct (run [1; 1]%nat init l) as [[s tr]|] eqn:E; [|vm_compute in E; discriminate].
  exists s, tr. split; [exact (run_reach _ l init s tr [] (reach_init _) E)|].
  vm_compute in E. injection E as <- <-. vm_compute. auto.
Qed.

(** Stage.Run ends: while it has not ended something can happen (if clients finish), and nothing can
    happen more than a fixed number of times. *)
Theorem C57_ends : forall groups s tr, reach groups s tr ->
  (s_pc s <> Ended -> s_elapsed s = false -> s_stopped s = false ->
   exists a s' es, step groups s a = Some (s', es) /\ a <> AElapse /\ a <> AStop)
  /\ (forall l s' es, run groups s l = Some (s', es) -> (List.length l <= 3 + list_sum (map (fun n => 4 * n + 14) groups))%nat).
Proof.
  intros groups s tr R. split.
  - intros Hp He Hs. apply reach_inv in R. eapply goes_on; eauto.
  - assert (X : forall s tr, reach groups s tr -> (left_of groups s <= 3 + list_sum (map (fun n => 4 * n + 14) groups))%nat).
    { clear. change (list_sum (map (fun n => 4 * n + 14) groups)) with (rest groups). induction 1 as [|s tr a s' es R IH H]; [cbn -[rest]; lia|]. apply reach_inv in R. pose proof (left_step groups s tr a s' es R H). lia. }
    intros l s' es H. apply X in R as L. enough ((List.length l <= left_of groups s)%nat) by lia. clear X L.
    revert s tr s' es R H. induction l as [|a l IH]; cbn [run List.length]; intros s tr s' es R H; [lia|].
    destruct (step groups s a) as [[s1 e1]|] eqn:E; [|discriminate]. destruct (run groups s1 l) as [[s2 e2]|] eqn:E2; [|discriminate].
    pose proof (left_step groups s tr a s1 e1 (reach_inv _ _ _ R) E). pose proof (IH s1 _ s2 e2 (reach_step _ _ _ _ _ _ R E) E2). lia.
Qed.

(** * C78: no exec group starts after the stage's runtime elapsed *)
(** It does: only ctxFinch is looked at before a group starts.  Clients of the previous group can
    still be running then, and when one of them finishes it is counted as one of the next group. *)
Theorem C78_refuted : exists s tr s' es, reach [1; 1]%nat s tr /\ s_elapsed s = true /\ s_stopped s = false /\ s_pc s = Wait 0 1
  /\ run [1; 1]%nat s (repeat (AStage true) 13 ++ [AStage false; AStage false; AFinish (0, 0); ASend (0, 0); AStage false])%nat = Some (s', es)
  /\ es = [EStart (1, 0); EFinish (0, 0); ECount (0, 0)]%nat /\ s_pc s' = Wait 1 0 /\ s_run s' = [(1, 0)]%nat.
Proof.
  destruct (run [1; 1]%nat init [AStage false; AStage false; AStage false; AElapse]) as [[s tr]|] eqn:E; [|vm_compute in E; discriminate].
  assert (R : reach [1; 1]%nat s tr) by exact (run_reach _ _ init s tr [] (reach_init _) E).
  vm_compute in E. injection E as <- <-. do 4 eexists. split; [exact R|]. split; [reflexivity|]. split; [reflexivity|]. split; [reflexivity|].
  split; [vm_compute; reflexivity|]. auto.
Qed.

Print Assumptions C57_order.
Print Assumptions C57_stop.
Print Assumptions C57_all.
Print Assumptions C57_ends.
Print Assumptions C78_refuted.
