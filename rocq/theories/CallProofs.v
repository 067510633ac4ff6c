(** When scoped generators call the generator they wrap. *)
From Verif Require Import Prelude ListAux ScopeModel ScopeSpec.

Section Single.
  Context {G V : Type} (gvalues : G -> runcount -> G * list V).

  Lemma sg_class_single sc : single_client sc ->
    exists n, sg_class sc = CSingle n /\ forall rc, rc_get rc n = scope_counter sc rc.
  Proof. intros [->|[->|[->| ->]]]; cbn; eexists; split; reflexivity. Qed.

  Lemma single_uses n (counter : runcount -> N) (EQ : forall rc, rc_get rc n = counter rc) : forall us seen s,
    sg_cls _ _ s = CSingle n ->
    (forall x, In x seen -> (x <= sg_last _ _ s)%N) ->
    (seen = [] -> sg_last _ _ s = 0%N) -> (seen <> [] -> In (sg_last _ _ s) seen) ->
    (forall u, In u us -> (sg_last _ _ s <= counter (snd u))%N /\ (1 <= counter (snd u))%N) ->
    (forall i j u u', (i < j)%nat -> nth_error us i = Some u -> nth_error us j = Some u' ->
       (counter (snd u) <= counter (snd u'))%N) ->
    let '(s', outs) := sg_uses _ _ gvalues s (map to_use us) in
    let '(g', vs) := gen_run gvalues (sg_g _ _ s) (calling counter seen us) in
    sg_g _ _ s' = g' /\ outs = returns counter seen (vals_of _ (sg_vals _ _ s)) us vs.
  Proof.
    induction us as [|u us IH]; intros seen s C LE E0 IN GE MONO; cbn [map sg_uses calling returns gen_run].
    - cbn. auto.
    - destruct u as [ex c]. change (to_use (ex, c)) with (Use ex c). cbn [fst snd].
      destruct (GE (ex, c) (or_introl eq_refl)) as [G1 G2]. cbn [snd] in G1, G2.
      assert (GE' : forall u, In u us -> (counter c <= counter (snd u))%N /\ (1 <= counter (snd u))%N).
      { intros u Hu. split; [|apply GE; right; auto]. apply In_nth_error in Hu as [j Hu].
        apply (MONO 0%nat (S j) (ex, c) u); auto. lia. }
      assert (MONO' : forall i j u u', (i < j)%nat -> nth_error us i = Some u -> nth_error us j = Some u' ->
         (counter (snd u) <= counter (snd u'))%N).
      { intros i j a b L A B. apply (MONO (S i) (S j)); auto. lia. }
      assert (CASE : new_call counter seen (ex, c) = ex || (sg_last _ _ s <? counter c)%N).
      { unfold new_call. cbn [fst snd]. f_equal.
        destruct (N.ltb_spec (sg_last _ _ s) (counter c)) as [L|L].
        - apply negb_true_iff. destruct (existsb (N.eqb (counter c)) seen) eqn:X; auto. exfalso.
          apply existsb_exists in X as (x & X1 & X2). apply N.eqb_eq in X2. subst x.
          specialize (LE _ X1). lia.
        - assert (EE : counter c = sg_last _ _ s) by lia.
          apply negb_false_iff. apply existsb_exists. exists (sg_last _ _ s).
          split; [|rewrite EE; apply N.eqb_refl]. apply IN. intros ->. rewrite (E0 eq_refl) in L. lia. }
      destruct (ex || (sg_last _ _ s <? counter c)%N) eqn:CALL; rewrite CASE.
      + assert (SU : sg_use _ _ gvalues s (Use ex c) = sg_call _ _ gvalues s c).
        { cbn [sg_use]. destruct ex; auto. unfold sg_values. rewrite C, EQ. cbn in CALL. now rewrite CALL. }
        rewrite SU.
        unfold sg_call. rewrite C. cbn [gen_run].
        destruct (gvalues (sg_g _ _ s) c) as [g1 v] eqn:HG.
        assert (SNO : sg_sno _ _ s = n) by (unfold sg_sno; now rewrite C).
        rewrite SNO, EQ.
        specialize (IH (counter c :: seen) (SG (CSingle n) g1 (counter c) (Some v) (sg_iter _ _ s) (sg_cgvals _ _ s)) eq_refl).
        cbn [sg_last sg_g sg_vals vals_of] in IH.
        revert IH.
        destruct (sg_uses _ _ gvalues (SG (CSingle n) g1 (counter c) (Some v) (sg_iter _ _ s) (sg_cgvals _ _ s)) (map to_use us)) as [s2 outs].
        destruct (gen_run gvalues g1 (calling counter (counter c :: seen) us)) as [g2 vs].
        cbv beta iota. intros IH. destruct IH as [A B]; auto.
        * intros x [<-|Hx]; [lia|]. specialize (LE _ Hx). lia.
        * discriminate.
        * left; auto.
        * split; auto. now rewrite B.
      + apply orb_false_iff in CALL as [-> CALL].
        assert (EE : counter c = sg_last _ _ s) by (apply N.ltb_ge in CALL; lia).
        cbn [sg_use].
        unfold sg_values at 1. rewrite C, EQ, CALL.
        specialize (IH (counter c :: seen) s C).
        revert IH.
        destruct (sg_uses _ _ gvalues s (map to_use us)) as [s2 outs].
        destruct (gen_run gvalues (sg_g _ _ s) (calling counter (counter c :: seen) us)) as [g2 vs].
        cbv beta iota. intros IH. destruct IH as [A B]; auto.
        * intros x [<-|Hx]; [lia|auto].
        * discriminate.
        * intros _. left. auto.
        * intros u Hu. rewrite <- EE. apply GE'; auto.
        * split; auto. now rewrite B.
  Qed.

  Lemma single_client_ok sc g us :
    single_client sc -> counting (scope_counter sc) us ->
    let '(s', outs) := sg_uses _ _ gvalues (sg_new sc g) (map to_use us) in
    let '(g', vs) := gen_run gvalues g (calling (scope_counter sc) [] us) in
    sg_g _ _ s' = g' /\ outs = returns (scope_counter sc) [] [] us vs.
  Proof.
    intros S [P M]. destruct (sg_class_single sc S) as (n & C & EQ).
    apply (single_uses n (scope_counter sc) EQ us [] (sg_new sc g)); auto.
    - intros x [].
    - congruence.
    - intros u Hu. split; [cbn; lia|auto].
  Qed.
End Single.

(** * Concurrent clients *)

Section Snoc.
  Context {V : Type} (counter : runcount -> N).
  Definition seen_after (us : list (bool * runcount)) (seen : list N) : list N :=
    rev (map (fun u => counter (snd u)) us) ++ seen.

  Lemma seen_after_cons u us seen : seen_after (u :: us) seen = seen_after us (counter (snd u) :: seen).
  Proof. unfold seen_after. cbn. now rewrite <- app_assoc. Qed.

  Lemma calling_snoc us : forall seen u,
    calling counter seen (us ++ [u]) =
    calling counter seen us ++ (if new_call counter (seen_after us seen) u then [snd u] else []).
  Proof.
    induction us as [|a us IH]; intros seen u; cbn [app calling].
    - cbn. destruct (new_call counter seen u); reflexivity.
    - rewrite IH, seen_after_cons. destruct (new_call counter seen a); reflexivity.
  Qed.

  Lemma last_cons {A} (x : A) l d : last (x :: l) d = last l x.
  Proof.
    revert x d; induction l as [|a l IH]; intros x d; auto. change (last (x :: a :: l) d) with (last (a :: l) d).
    rewrite IH, (IH a x). reflexivity.
  Qed.

  Lemma returns_snoc us : forall seen (nw : list V) u vs w,
    length vs = length (calling counter seen us) ->
    returns counter seen nw (us ++ [u]) (vs ++ w) =
    returns counter seen nw us vs ++
      (if new_call counter (seen_after us seen) u
       then match w with v :: _ => [v] | [] => [] end
       else [last (returns counter seen nw us vs) nw]).
  Proof.
    induction us as [|a us IH]; intros seen nw u vs w L; cbn [app calling returns] in *.
    - destruct vs; [|discriminate]. cbn. destruct (new_call counter seen u); auto.
    - rewrite seen_after_cons. destruct (new_call counter seen a).
      + destruct vs as [|v vs]; [discriminate|]. cbn in L. cbn [app]. rewrite IH by lia.
        rewrite last_cons. reflexivity.
      + rewrite IH by lia. rewrite last_cons. reflexivity.
  Qed.
End Snoc.

Section Multi.
  Context {G V : Type} (gvalues : G -> runcount -> G * list V) (num : nat -> N).

  (** client facts between uses *)
  Definition facts (it : option N) (vals : list V) (us : list (bool * runcount))
             (cs : list (runcount * list V)) (rs : list (list V)) : Prop :=
    map fst cs = calling rc_iter [] us /\
    rs = returns rc_iter [] [] us (map snd cs) /\
    match rev us with
    | [] => it = None
    | u :: _ => it = Some (rc_iter (snd u)) /\ vals = last rs []
    end.

  Definition tinv (ph : mphase V) it vals us cs rs : Prop :=
    match ph with
    | MIdle _ => facts it vals us cs rs
    | MWant _ cnt => exists us0 ex, us = us0 ++ [(ex, cnt)] /\
        new_call rc_iter (seen_after rc_iter us0 []) (ex, cnt) = true /\ facts it vals us0 cs rs
    | MHave _ cnt v => exists us0 ex cs0, us = us0 ++ [(ex, cnt)] /\ cs = cs0 ++ [(cnt, v)] /\
        new_call rc_iter (seen_after rc_iter us0 []) (ex, cnt) = true /\ facts it vals us0 cs0 rs
    end.

  Definition minv (g0 : G) (s : mst G V) (tr : list (mevent V)) : Prop :=
    gen_run gvalues g0 (all_calls tr) = (m_g _ _ s, all_values tr) /\
    forall t, tinv (m_ph _ _ s t) (m_iter _ _ s (num t)) (m_vals _ _ s (num t))
                   (uses_by t tr) (calls_by t tr) (rets_by t tr).

  Lemma uses_by_app t a b : uses_by t (a ++ b : list (mevent V)) = uses_by t a ++ uses_by t b.
  Proof. apply flat_map_app. Qed.
  Lemma uses_by_cons t e c (l : list (mevent V)) : uses_by t (EvUse t e c :: l) = (e, c) :: uses_by t l.
  Proof. unfold uses_by. cbn [flat_map]. now rewrite Nat.eqb_refl. Qed.
  Lemma calls_by_app t a b : calls_by t (a ++ b : list (mevent V)) = calls_by t a ++ calls_by t b.
  Proof. apply flat_map_app. Qed.
  Lemma rets_by_app t a b : rets_by t (a ++ b : list (mevent V)) = rets_by t a ++ rets_by t b.
  Proof. apply flat_map_app. Qed.
  Lemma all_calls_app a b : all_calls (a ++ b : list (mevent V)) = all_calls a ++ all_calls b.
  Proof. apply flat_map_app. Qed.
  Lemma all_values_app a b : all_values (a ++ b : list (mevent V)) = all_values a ++ all_values b.
  Proof. apply flat_map_app. Qed.

  Lemma gen_run_app cs1 : forall g cs2,
    gen_run gvalues g (cs1 ++ cs2) =
    let '(g1, v1) := gen_run gvalues g cs1 in
    let '(g2, v2) := gen_run gvalues g1 cs2 in (g2, v1 ++ v2).
  Proof.
    induction cs1 as [|c cs1 IH]; intros g cs2; cbn [app gen_run].
    - destruct (gen_run gvalues g cs2); reflexivity.
    - destruct (gvalues g c) as [g1 v]. rewrite IH.
      destruct (gen_run gvalues g1 cs1) as [g2 v2].
      destruct (gen_run gvalues g2 cs2) as [g3 v3]. reflexivity.
  Qed.

  Lemma trace_ok_prefix (a b : list (mevent V)) : trace_ok num (a ++ b) -> trace_ok num a.
  Proof.
    intros [A B]. split.
    - intros t ex c H. apply (A t ex). rewrite uses_by_app. apply in_or_app; auto.
    - intros t i j u u' L H1 H2. apply (B t i j); auto; rewrite uses_by_app.
      + rewrite nth_error_app1; auto. apply nth_error_Some. congruence.
      + rewrite nth_error_app1; auto. apply nth_error_Some. congruence.
  Qed.

  Lemma last_rev {A} (us : list A) u r : rev us = u :: r -> us = rev r ++ [u].
  Proof. intros H. rewrite <- (rev_involutive us), H. reflexivity. Qed.

  (** with monotone counters: not seen iff greater than the last one *)
  Lemma new_call_last us ex c :
    (forall i j u u', (i < j)%nat -> nth_error (us ++ [(ex, c)]) i = Some u -> nth_error (us ++ [(ex, c)]) j = Some u' ->
       (rc_iter (snd u) <= rc_iter (snd u'))%N) ->
    new_call rc_iter (seen_after rc_iter us []) (ex, c) =
    ex || match rev us with [] => true | u :: _ => (rc_iter (snd u) <? rc_iter c)%N end.
  Proof.
    intros M. unfold new_call, seen_after. cbn [fst snd]. f_equal. rewrite app_nil_r.
    destruct (rev us) as [|u r] eqn:E.
    - assert (us = []) as -> by (rewrite <- (rev_involutive us), E; reflexivity). reflexivity.
    - apply last_rev in E. subst us.
      destruct (N.ltb_spec (rc_iter (snd u)) (rc_iter c)) as [L|L].
      + apply negb_true_iff.
        match goal with |- existsb ?f ?l = _ => destruct (existsb f l) eqn:X; auto end. exfalso.
        apply existsb_exists in X as (x & X1 & X2). apply N.eqb_eq in X2. subst x.
        apply in_rev in X1. apply in_map_iff in X1 as (u0 & X2 & X3).
        apply In_nth_error in X3 as [n X3].
        assert (LEN : nth_error (rev r ++ [u]) (length r) = Some u).
        { rewrite nth_error_app2; rewrite rev_length; auto. now rewrite Nat.sub_diag. }
        assert (n <= length r)%nat.
        { assert (n < length (rev r ++ [u]))%nat by (apply nth_error_Some; congruence).
          rewrite app_length, rev_length in H. cbn in H. lia. }
        destruct (Nat.eq_dec n (length r)) as [->|NE].
        * rewrite LEN in X3. inv X3. lia.
        * assert (rc_iter (snd u0) <= rc_iter (snd u))%N; [|lia].
          apply (M n (length r)); [lia| |].
          -- rewrite nth_error_app1; auto. apply nth_error_Some. congruence.
          -- rewrite nth_error_app1; auto. apply nth_error_Some. congruence.
      + apply negb_false_iff. apply existsb_exists. exists (rc_iter (snd u)).
        split; [apply -> in_rev; apply in_map_iff; exists u; split; auto; apply in_or_app; right; left; auto|].
        assert (rc_iter (snd u) <= rc_iter c)%N.
        { apply (M (length r) (S (length r)) u (ex, c)); [lia| |].
          - rewrite nth_error_app1; [|rewrite app_length, rev_length; cbn; lia].
            rewrite nth_error_app2; rewrite rev_length; auto. now rewrite Nat.sub_diag.
          - rewrite nth_error_app2; rewrite app_length, rev_length; cbn [length]; [|lia].
            replace (S (length r) - (length r + 1))%nat with 0%nat by lia. reflexivity. }
        apply N.eqb_eq. lia.
  Qed.

  Lemma facts_snoc_call it vals us cs rs ex cnt v :
    facts it vals us cs rs -> new_call rc_iter (seen_after rc_iter us []) (ex, cnt) = true ->
    facts (Some (rc_iter cnt)) v (us ++ [(ex, cnt)]) (cs ++ [(cnt, v)]) (rs ++ [v]).
  Proof.
    intros (A & B & C) N. unfold facts. rewrite !map_app, calling_snoc, N, A. split; auto.
    assert (L : length (map snd cs) = length (calling rc_iter [] us)).
    { rewrite <- A, !map_length. reflexivity. }
    split.
    - rewrite returns_snoc by auto. rewrite N, B. reflexivity.
    - rewrite rev_app_distr. cbn. split; auto. now rewrite last_last.
  Qed.

  Lemma facts_snoc_old it vals us cs rs cnt prev :
    facts it vals us cs rs -> it = Some prev -> (rc_iter cnt <= prev)%N ->
    new_call rc_iter (seen_after rc_iter us []) (false, cnt) = false ->
    (forall u r, rev us = u :: r -> rc_iter (snd u) <= rc_iter cnt)%N ->
    facts it vals (us ++ [(false, cnt)]) cs (rs ++ [vals]).
  Proof.
    intros (A & B & C) I LE N M. unfold facts. rewrite calling_snoc, N, app_nil_r. split; auto.
    assert (L : length (map snd cs) = length (calling rc_iter [] us)).
    { rewrite <- A, !map_length. reflexivity. }
    destruct (rev us) as [|u r] eqn:E; [congruence|]. destruct C as [C1 C2].
    split.
    - pose proof (returns_snoc (V:=V) rc_iter us [] [] (false, cnt) (map snd cs) [] L) as X.
      rewrite app_nil_r, N in X. rewrite X, <- B, <- C2. reflexivity.
    - rewrite rev_app_distr. cbn. rewrite last_last. split; auto.
      rewrite C1. f_equal. specialize (M u r eq_refl). rewrite C1 in I. inv I. cbn. lia.
  Qed.

  Lemma m_step_inv g0 s tr l s' evs :
    (forall t t', num t = num t' -> t = t') ->
    minv g0 s tr -> m_step _ _ gvalues s l = Some (s', evs) -> trace_ok num (tr ++ evs) -> minv g0 s' (tr ++ evs).
  Proof.
    intros INJ [MG MT] H [NUM MONO].
    destruct l as [t ex cnt|t]; cbn in H.
    - destruct (m_ph _ _ s t) eqn:HP; try discriminate.
      assert (OTHER : forall t' e, t' <> t -> uses_by t' [EvUse t e cnt : mevent V] = []).
      { intros t' e N. unfold uses_by. cbn [flat_map]. destruct (Nat.eqb_spec t t'); [congruence|reflexivity]. }
      assert (OWN : forall e, uses_by t [EvUse t e cnt : mevent V] = [(e, cnt)]).
      { intros e. cbn. now rewrite Nat.eqb_refl. }
      pose proof (MT t) as Tt. rewrite HP in Tt. cbn in Tt.
      assert (WANT : evs = [EvUse t ex cnt] ->
         s' = MSt (m_g _ _ s) (m_iter _ _ s) (m_vals _ _ s) (natupd (m_ph _ _ s) t (MWant _ cnt)) ->
         new_call rc_iter (seen_after rc_iter (uses_by t tr) []) (ex, cnt) = true ->
         minv g0 s' (tr ++ evs)).
      { intros -> -> NC. split; cbn [m_g m_iter m_vals m_ph].
        - rewrite all_calls_app, all_values_app, gen_run_app, MG. cbn. now rewrite !app_nil_r.
        - intros t'. rewrite uses_by_app, calls_by_app, rets_by_app.
          change (calls_by t' [EvUse t ex cnt : mevent V]) with (@nil (runcount * list V)).
          change (rets_by t' [EvUse t ex cnt : mevent V]) with (@nil (list V)).
          rewrite !app_nil_r. destruct (Nat.eq_dec t t') as [<-|NE].
          + rewrite natupd_same, OWN. cbn. exists (uses_by t tr), ex. auto.
          + rewrite natupd_other, OTHER, app_nil_r by auto. apply MT. }
      assert (MONO1 : forall e evs', evs = EvUse t e cnt :: evs' -> uses_by t evs' = [] ->
        (forall i j u u', (i < j)%nat -> nth_error (uses_by t tr ++ [(e, cnt)]) i = Some u ->
           nth_error (uses_by t tr ++ [(e, cnt)]) j = Some u' -> (rc_iter (snd u) <= rc_iter (snd u'))%N)).
      { intros e evs' -> E i j u u' L X Y. apply (MONO t i j); auto; rewrite uses_by_app, uses_by_cons, E; auto. }
      assert (RC : forall e evs', evs = EvUse t e cnt :: evs' -> rc_client cnt = num t).
      { intros e evs' ->. apply (NUM t e). rewrite uses_by_app, uses_by_cons. apply in_or_app; right. left; auto. }
      destruct ex.
      + inv H. apply WANT; auto.
      + destruct Tt as (T1 & T2 & T3).
        destruct (m_iter _ _ s (rc_client cnt)) as [prev|] eqn:HI.
        * destruct (N.ltb_spec prev (rc_iter cnt)) as [L|L].
          -- injection H as E1 E2; symmetry in E1, E2. apply WANT; auto.
             rewrite new_call_last by (apply (MONO1 false []); auto). cbn.
             rewrite <- (RC false []) in T3 by auto. destruct (rev (uses_by t tr)); auto.
             destruct T3 as [T3 _]. rewrite HI in T3. inv T3. now apply N.ltb_lt.
          -- inversion H; subst s' evs; clear H.
             rewrite (RC false [EvRet t (m_vals G V s (rc_client cnt))]) in * by auto.
             pose proof (MONO1 false [EvRet t (m_vals G V s (num t))] eq_refl eq_refl) as M1.
             split.
             ++ rewrite all_calls_app, all_values_app, gen_run_app, MG. cbn. now rewrite !app_nil_r.
             ++ intros t'. rewrite uses_by_app, calls_by_app, rets_by_app.
                change (calls_by t' [EvUse t false cnt; EvRet t (m_vals G V s (num t))]) with (@nil (runcount * list V)).
                rewrite app_nil_r. destruct (Nat.eq_dec t t') as [<-|NE].
                ** rewrite HP. cbn. rewrite Nat.eqb_refl. cbn.
                   eapply facts_snoc_old; eauto.
                   --- unfold facts. auto.
                   --- rewrite new_call_last by auto. cbn. destruct (rev (uses_by t tr)); [congruence|].
                       destruct T3 as [T3 _]. rewrite HI in T3. inv T3. apply N.ltb_ge. auto.
                   --- intros u r E. apply last_rev in E. rewrite E in M1.
                       apply (M1 (length r) (S (length r)) u (false, cnt)); [lia| |].
                       +++ rewrite nth_error_app1; [|rewrite app_length, rev_length; cbn; lia].
                           rewrite nth_error_app2; rewrite rev_length; auto. now rewrite Nat.sub_diag.
                       +++ rewrite nth_error_app2; rewrite app_length, rev_length; cbn [length]; [|lia].
                           replace (S (length r) - (length r + 1))%nat with 0%nat by lia. reflexivity.
                ** cbn. destruct (Nat.eqb_spec t t'); [congruence|]. cbn. rewrite !app_nil_r. apply MT.
        * injection H as E1 E2; symmetry in E1, E2. apply WANT; auto.
          rewrite new_call_last by (apply (MONO1 false []); auto). cbn.
          rewrite <- (RC false []) in T3 by auto. destruct (rev (uses_by t tr)); auto.
          destruct T3 as [T3 _]. congruence.
    - destruct (m_ph _ _ s t) as [|cnt|cnt v] eqn:HP; try discriminate.
      + destruct (gvalues (m_g _ _ s) cnt) as [g1 v] eqn:HG. inversion H; subst s' evs; clear H.
        pose proof (MT t) as Tt. rewrite HP in Tt. cbn in Tt. destruct Tt as (us0 & ex & T1 & T2 & T3).
        split; cbn [m_g m_iter m_vals m_ph].
        * rewrite all_calls_app, all_values_app, gen_run_app, MG. cbn. now rewrite HG.
        * intros t'. rewrite uses_by_app, calls_by_app, rets_by_app.
          change (uses_by t' [EvCall t cnt v]) with (@nil (bool * runcount)).
          change (rets_by t' [EvCall t cnt v]) with (@nil (list V)). rewrite !app_nil_r.
          destruct (Nat.eq_dec t t') as [<-|NE].
          -- rewrite natupd_same. cbn. rewrite Nat.eqb_refl. exists us0, ex, (calls_by t tr). auto.
          -- rewrite natupd_other by auto. cbn. destruct (Nat.eqb_spec t t'); [congruence|].
             rewrite app_nil_r. apply MT.
      + inversion H; subst s' evs; clear H.
        pose proof (MT t) as Tt. rewrite HP in Tt. cbn in Tt. destruct Tt as (us0 & ex & cs0 & T1 & T2 & T3 & T4).
        assert (RC : rc_client cnt = num t).
        { apply (NUM t ex). rewrite uses_by_app, T1. apply in_or_app; left. apply in_or_app; right; left; auto. }
        rewrite RC.
        split; cbn [m_g m_iter m_vals m_ph].
        * rewrite all_calls_app, all_values_app, gen_run_app, MG. cbn. now rewrite !app_nil_r.
        * intros t'. rewrite uses_by_app, calls_by_app, rets_by_app.
          change (uses_by t' [EvRet t v]) with (@nil (bool * runcount)).
          change (calls_by t' [EvRet t v]) with (@nil (runcount * list V)). rewrite !app_nil_r.
          destruct (Nat.eq_dec t t') as [<-|NE].
          -- rewrite natupd_same, !nupd_same. cbn. rewrite Nat.eqb_refl, T1, T2.
             eapply facts_snoc_call; eauto.
          -- rewrite natupd_other by auto. rewrite !nupd_other by (intros X; apply NE, INJ; auto).
             cbn. destruct (Nat.eqb_spec t t'); [congruence|]. rewrite app_nil_r. apply MT.
  Qed.

  Lemma m_run_inv g0 ls : (forall t t', num t = num t' -> t = t') ->
    forall s tr s' evs, minv g0 s tr -> m_run _ _ gvalues s ls = Some (s', evs) ->
    trace_ok num (tr ++ evs) -> minv g0 s' (tr ++ evs).
  Proof.
    intros INJ. induction ls as [|l ls IH]; intros s tr s' evs M H T; cbn in H.
    - inv H. now rewrite app_nil_r.
    - destruct (m_step _ _ gvalues s l) as [[s1 e1]|] eqn:HS; [|discriminate].
      destruct (m_run _ _ gvalues s1 ls) as [[s2 e2]|] eqn:HR; [|discriminate]. inv H.
      rewrite app_assoc in *. eapply IH; eauto. eapply m_step_inv; eauto. eapply trace_ok_prefix; eauto.
  Qed.

  Lemma multi_client_ok g0 ls s tr :
    (forall t t', num t = num t' -> t = t') ->
    m_run _ _ gvalues (m_init g0) ls = Some (s, tr) ->
    trace_ok num tr ->
    gen_run gvalues g0 (all_calls tr) = (m_g _ _ s, all_values tr) /\
    forall t, m_ph _ _ s t = MIdle _ ->
      map fst (calls_by t tr) = calling rc_iter [] (uses_by t tr) /\
      rets_by t tr = returns rc_iter [] [] (uses_by t tr) (map snd (calls_by t tr)).
  Proof.
    intros INJ H T.
    assert (I0 : minv g0 (m_init g0) []). { split; [reflexivity|]. intros t. cbn. repeat split. }
    destruct (m_run_inv g0 ls INJ _ [] _ _ I0 H T) as [A B]. split; auto.
    intros t P. specialize (B t). rewrite P in B. destruct B as (B1 & B2 & _). auto.
  Qed.
End Multi.
