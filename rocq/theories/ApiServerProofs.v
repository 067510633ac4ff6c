(** The server's own steps, and what holds for any schedule. *)
From Verif Require Import Prelude ConfigModel ConfigProofs TrxModel ApiModel ApiSpec ApiProofs.

Section sane.
  Context (test : bool).

  Lemma sane_cancel s tr :
    sane test s tr ->
    sane test (St (s_cur s) (s_metas s) (s_nmetas s) (s_rcs s) (s_nrcs s) (s_threads s) (s_nthreads s)
                 (s_server s) (s_locals s) true) (tr ++ []).
  Proof.
    intros N. rewrite app_nil_r. destruct N; split; cbn; auto.
    eapply srv_ok_frame; [| | | |exact n_srv]; auto. intros; apply kept_refl.
  Qed.

  Lemma sane_local s m s' es tr : sane test s tr -> step test s (ALocalDone m) = Some (s', es) -> sane test s' (tr ++ es).
  Proof.
    intros N H. step_cases H. 
    set (g := s_metas s m).
    assert (K : forall i, kept (s_metas s i) (upd (s_metas s) m (set_doneq g (g_doneq g ++ [(None, false)])) i)).
    { intros i. unfold upd. destruct (Nat.eqb_spec i m) as [->|]; [|apply kept_refl]. repeat split; easy. }
    assert (C : forall i, g_clients (upd (s_metas s) m (set_doneq g (g_doneq g ++ [(None, false)])) i) = g_clients (s_metas s i)).
    { intros i. unfold upd. destruct (Nat.eqb_spec i m) as [->|]; reflexivity. }
    assert (E1 : forall i, counted i (tr ++ [ELocalDone m]) = counted i tr).
    { intros i. rewrite counted_app. apply app_nil_r. }
    assert (E2 : forall i, finished i (tr ++ [ELocalDone m]) = finished i tr).
    { intros i. rewrite finished_app. apply app_nil_r. }
    fold g.
    split; cbn -[upd].
    - intros i Hi. rewrite E1, E2. now apply (n_new _ _ _ N).
    - eapply srv_ok_frame; [| | | |apply (n_srv _ _ _ N)]; auto.
    - intros i. pose proof (K i) as (? & ? & ? & ? & ? & -> & -> & ? & ?). apply (n_run _ _ _ N).
    - intros i. rewrite E1. pose proof (K i) as (? & -> & ? & ? & ? & ? & -> & ? & ?). apply (n_booted _ _ _ N).
    - intros i. rewrite E2. pose proof (K i) as (? & ? & ? & ? & ? & -> & ? & ? & ?). apply (n_fin _ _ _ N).
    - intros i. rewrite C. apply (n_cold _ _ _ N).
    - intros i. rewrite C. apply (n_keys _ _ _ N).
    - intros i. pose proof (K i) as (? & -> & -> & -> & _). apply (n_need _ _ _ N).
    - intros i. rewrite C. pose proof (K i) as (? & ? & -> & _). apply (n_bound _ _ _ N).
  Qed.

  Lemma sane_new s tr id inst dl trx lok s' es : bound s -> sane test s tr ->
    step test s (ANewStage id inst dl trx lok) = Some (s', es) -> sane test s' (tr ++ es).
  Proof.
    intros B N H. unfold step in H. destruct (s_server s) eqn:Ev; try discriminate.
    destruct (s_cancelled s); [discriminate|]. injection H as <- <-. rewrite app_nil_r.
    pose proof (n_new _ _ _ N (s_nmetas s) (le_n _)) as [Z1 Z2].
    split; cbn.
    - intros m Hm. apply (n_new _ _ _ N). lia.
    - repeat dmg; cbn; rewrite ?upd_same; cbn; rewrite ?Z1; auto.
    - intros m. unfold upd. destruct (Nat.eqb_spec m (s_nmetas s)); [easy|]. apply (n_run _ _ _ N).
    - intros m. unfold upd. destruct (Nat.eqb_spec m (s_nmetas s)); [easy|]. apply (n_booted _ _ _ N).
    - intros m. unfold upd. destruct (Nat.eqb_spec m (s_nmetas s)) as [->|]; [easy|]. apply (n_fin _ _ _ N).
    - intros m. unfold upd. destruct (Nat.eqb_spec m (s_nmetas s)) as [->|]; [easy|]. apply (n_cold _ _ _ N).
    - intros m. unfold upd. destruct (Nat.eqb_spec m (s_nmetas s)) as [->|]; [constructor|]. apply (n_keys _ _ _ N).
    - intros m Hm. unfold upd. destruct (Nat.eqb_spec m (s_nmetas s)) as [->|]; [now destruct dl|].
      apply (n_need _ _ _ N). lia.
    - intros m. unfold upd. destruct (Nat.eqb_spec m (s_nmetas s)) as [->|]; [cbn; lia|]. apply (n_bound _ _ _ N).
  Qed.

  (** Replacing the current stage touches none of the continuation, which is no call of Stage. *)
  Fixpoint flat (v : server) : Prop :=
    match v with
    | Stage1 _ k | Stage2 _ _ k | Stage3 _ _ k | Stage4 _ k =>
        flat k /\ match k with Stage1 _ _ | Stage2 _ _ _ | Stage3 _ _ _ | Stage4 _ _ => False | _ => True end
    | _ => True
    end.
  Lemma flat_step s a s' es : flat (s_server s) -> step test s a = Some (s', es) -> flat (s_server s').
  Proof.
    intros F H. step_cases H; cbn in *; auto;
      try (match goal with E : s_server _ = _ |- _ => rewrite E in F; cbn in F end; cbn; try tauto; auto);
      try (now destruct F);
      match goal with E : s_server _ = _ |- _ => rewrite E; exact F end.
  Qed.

  Lemma sane_server s tr d s' es : bound s -> flat (s_server s) -> sane test s tr ->
    step test s (AServer d) = Some (s', es) -> sane test s' (tr ++ es).
  Proof.
    intros B F N H. pose proof (n_srv _ _ _ N) as V. unfold step, server_step in H.
    destruct (s_server s) as [|next k|old next k|old next k|next k|m n|m n|m n|m n| |] eqn:Ev; try discriminate; cbn in V.
    - destruct (s_cur s) as [old|] eqn:Ec.
      + injection H as <- <-. rewrite app_nil_r. destruct N; split; cbn; auto. split; [exact Ec|].
        eapply srv_ok_frame; [| | | |exact V]; auto. intros; apply kept_refl.
      + injection H as <- <-. rewrite app_nil_r. destruct N; split; cbn; auto.
        * clear - V F Ec. cbn in F. destruct F as [_ F]. destruct k; cbn in *; easy.
        * intros m Hm. exfalso. apply n_cold in Hm. congruence.
    - injection H as <- <-. rewrite app_nil_r. destruct V as [Ec V].
      assert (C : forall i, g_clients (upd (s_metas s) old (set_done (s_metas s old)) i) = g_clients (s_metas s i))
        by (intros i; unfold upd; destruct (Nat.eqb_spec i old) as [->|]; reflexivity).
      split; cbn -[upd].
      + apply (n_new _ _ _ N).
      + split; [exact Ec|]. split; [now rewrite upd_same|].
        cbn in F. destruct F as [_ F]. destruct k; try easy; cbn -[upd] in *; unfold upd;
          destruct (Nat.eqb_spec m old) as [->|]; cbn; tauto.
      + intros m. unfold upd. destruct (Nat.eqb_spec m old) as [->|]; apply (n_run _ _ _ N).
      + intros m. unfold upd. destruct (Nat.eqb_spec m old) as [->|]; apply (n_booted _ _ _ N).
      + intros m. unfold upd. destruct (Nat.eqb_spec m old) as [->|]; apply (n_fin _ _ _ N).
      + intros m. rewrite C. apply (n_cold _ _ _ N).
      + intros m. rewrite C. apply (n_keys _ _ _ N).
      + intros m. unfold upd. destruct (Nat.eqb_spec m old) as [->|]; apply (n_need _ _ _ N).
      + intros m. rewrite C. unfold upd. destruct (Nat.eqb_spec m old) as [->|]; apply (n_bound _ _ _ N).
    - destruct V as (Ec & Hd & V). destruct (g_clients (s_metas s old)) eqn:Eg; injection H as <- <-; rewrite app_nil_r; [|exact N].
      destruct N; split; cbn; auto. split; [eauto|].
      eapply srv_ok_frame; [| | | |exact V]; auto. intros; apply kept_refl.
    - destruct V as [(old & Ec & Hd & Eg) V]. injection H as <- <-. rewrite app_nil_r. destruct N; split; cbn; auto.
      + cbn in F. destruct F as [_ F]. destruct k; cbn in *; easy.
      + intros m Hm. exfalso. apply Hm. pose proof (n_cold m Hm) as E. congruence.
    - destruct V as (Vn & Vb & Vr). pose proof (b_srv s B) as Hm. rewrite Ev in Hm. cbn in Hm.
      destruct (n =? g_inst (s_metas s m))%N eqn:En.
      + apply N.eqb_eq in En. injection H as <- <-. rewrite app_nil_r. destruct N; split; cbn; auto.
      + destruct d.
        * destruct (s_cancelled s); [|discriminate]. injection H as <- <-. rewrite app_nil_r. destruct N; split; cbn; auto.
        * destruct (g_bootq (s_metas s m)) as [|[who err] q] eqn:Eq; [discriminate|].
          assert (C : forall i, g_clients (upd (s_metas s) m (set_bootq (s_metas s m) q) i) = g_clients (s_metas s i))
            by (intros i; unfold upd; destruct (Nat.eqb_spec i m) as [->|]; reflexivity).
          destruct err; injection H as <- <-.
          -- rewrite app_nil_r. split; cbn -[upd].
             ++ apply (n_new _ _ _ N).
             ++ rewrite Ev. cbn -[upd]. rewrite upd_same. cbn. auto.
             ++ intros i. unfold upd. destruct (Nat.eqb_spec i m) as [->|]; apply (n_run _ _ _ N).
             ++ intros i. unfold upd. destruct (Nat.eqb_spec i m) as [->|]; apply (n_booted _ _ _ N).
             ++ intros i. unfold upd. destruct (Nat.eqb_spec i m) as [->|]; apply (n_fin _ _ _ N).
             ++ intros i. rewrite C. apply (n_cold _ _ _ N).
             ++ intros i. rewrite C. apply (n_keys _ _ _ N).
             ++ intros i. unfold upd. destruct (Nat.eqb_spec i m) as [->|]; apply (n_need _ _ _ N).
             ++ intros i. rewrite C. unfold upd. destruct (Nat.eqb_spec i m) as [->|]; apply (n_bound _ _ _ N).
          -- assert (E2 : forall i, finished i (tr ++ [ECount m who]) = finished i tr)
               by (intros i; rewrite finished_app; apply app_nil_r).
             assert (E1 : forall i, i <> m -> counted i (tr ++ [ECount m who]) = counted i tr).
             { intros i Hi. rewrite counted_app. cbn. destruct (Nat.eqb_spec i m); [easy|]. apply app_nil_r. }
             split; cbn -[upd].
             ++ intros i Hi. rewrite E2, E1 by lia. now apply (n_new _ _ _ N).
             ++ rewrite upd_same. cbn. rewrite counted_app. cbn. rewrite Nat.eqb_refl. rewrite app_length. cbn.
                split; [lia|auto].
             ++ intros i. unfold upd. destruct (Nat.eqb_spec i m) as [->|]; apply (n_run _ _ _ N).
             ++ intros i. unfold upd. destruct (Nat.eqb_spec i m) as [->|]; [cbn; congruence|]. rewrite E1 by easy. apply (n_booted _ _ _ N).
             ++ intros i. rewrite E2. unfold upd. destruct (Nat.eqb_spec i m) as [->|]; apply (n_fin _ _ _ N).
             ++ intros i. rewrite C. apply (n_cold _ _ _ N).
             ++ intros i. rewrite C. apply (n_keys _ _ _ N).
             ++ intros i. unfold upd. destruct (Nat.eqb_spec i m) as [->|]; apply (n_need _ _ _ N).
             ++ intros i. rewrite C. unfold upd. destruct (Nat.eqb_spec i m) as [->|]; apply (n_bound _ _ _ N).
    - destruct V as (Vn & Vi & Vr).
      assert (C : forall i, g_clients (upd (s_metas s) m (set_booted (s_metas s m)) i) = g_clients (s_metas s i))
        by (intros i; unfold upd; destruct (Nat.eqb_spec i m) as [->|]; reflexivity).
      injection H as <- <-. rewrite app_nil_r. split; cbn -[upd].
      + apply (n_new _ _ _ N).
      + destruct test eqn:Et; cbn -[upd]; [easy|]. rewrite upd_same. cbn. auto.
      + intros i. unfold upd. destruct (Nat.eqb_spec i m) as [->|]; [|apply (n_run _ _ _ N)]. cbn. congruence.
      + intros i. unfold upd. destruct (Nat.eqb_spec i m) as [->|]; [|apply (n_booted _ _ _ N)]. cbn. intros _. lia.
      + intros i. unfold upd. destruct (Nat.eqb_spec i m) as [->|]; apply (n_fin _ _ _ N).
      + intros i. rewrite C. apply (n_cold _ _ _ N).
      + intros i. rewrite C. apply (n_keys _ _ _ N).
      + intros i. unfold upd. destruct (Nat.eqb_spec i m) as [->|]; apply (n_need _ _ _ N).
      + intros i. rewrite C. unfold upd. destruct (Nat.eqb_spec i m) as [->|]; apply (n_bound _ _ _ N).
    - destruct V as (Vn & Vb & Vr & Vt).
      assert (C : forall i, g_clients (upd (s_metas s) m (set_run (s_metas s m)) i) = g_clients (s_metas s i))
        by (intros i; unfold upd; destruct (Nat.eqb_spec i m) as [->|]; reflexivity).
      assert (X : forall e l, (forall i, counted i e = []) -> (forall i, finished i e = []) ->
        sane test (with_locals (with_server (with_meta s m (set_run (s_metas s m))) (RunWait m n)) l) (tr ++ e)).
      { intros e l He1 He2.
        assert (E1 : forall i, counted i (tr ++ e) = counted i tr) by (intros i; rewrite counted_app, He1; apply app_nil_r).
        assert (E2 : forall i, finished i (tr ++ e) = finished i tr) by (intros i; rewrite finished_app, He2; apply app_nil_r).
        split; cbn -[upd].
        - intros i. rewrite E1, E2. apply (n_new _ _ _ N).
        - rewrite upd_same. cbn. rewrite E2, (n_fin _ _ _ N) by exact Vr. cbn. split; [easy|lia].
        - intros i. unfold upd. destruct (Nat.eqb_spec i m) as [->|]; [|apply (n_run _ _ _ N)]. cbn. auto.
        - intros i. rewrite E1. unfold upd. destruct (Nat.eqb_spec i m) as [->|]; apply (n_booted _ _ _ N).
        - intros i. rewrite E2. unfold upd. destruct (Nat.eqb_spec i m) as [->|]; [discriminate|apply (n_fin _ _ _ N)].
        - intros i. rewrite C. apply (n_cold _ _ _ N).
        - intros i. rewrite C. apply (n_keys _ _ _ N).
        - intros i. unfold upd. destruct (Nat.eqb_spec i m) as [->|]; apply (n_need _ _ _ N).
        - intros i. rewrite C. unfold upd. destruct (Nat.eqb_spec i m) as [->|]; apply (n_bound _ _ _ N). }
      destruct (g_local (s_metas s m)); injection H as <- <-.
      + now apply X.
      + now apply (X [] (s_locals s)).
    - destruct V as (Vr & Vn). pose proof (b_srv s B) as Hm. rewrite Ev in Hm. cbn in Hm.
      destruct (n =? 0)%N eqn:En.
      + injection H as <- <-.
        assert (E1 : forall i, counted i (tr ++ [EEnd m]) = counted i tr) by (intros i; rewrite counted_app; apply app_nil_r).
        assert (E2 : forall i, finished i (tr ++ [EEnd m]) = finished i tr) by (intros i; rewrite finished_app; apply app_nil_r).
        destruct N; split; cbn; auto; intros i; rewrite ?E1, ?E2; auto.
      + destruct d.
        * destruct (s_cancelled s); [|discriminate]. injection H as <- <-. rewrite app_nil_r. destruct N; split; cbn; auto.
        * destruct (g_doneq (s_metas s m)) as [|[who err] q] eqn:Eq; [discriminate|]. injection H as <- <-.
          assert (C : forall i, g_clients (upd (s_metas s) m (set_doneq (s_metas s m) q) i) = g_clients (s_metas s i))
            by (intros i; unfold upd; destruct (Nat.eqb_spec i m) as [->|]; reflexivity).
          assert (E1 : forall i, counted i (tr ++ [EFinished m who]) = counted i tr)
               by (intros i; rewrite counted_app; apply app_nil_r).
          assert (E2 : forall i, i <> m -> finished i (tr ++ [EFinished m who]) = finished i tr).
          { intros i Hi. rewrite finished_app. cbn. destruct (Nat.eqb_spec i m); [easy|]. apply app_nil_r. }
          apply N.eqb_neq in En.
          split; cbn -[upd].
          -- intros i Hi. rewrite E1, E2 by lia. now apply (n_new _ _ _ N).
          -- rewrite upd_same. cbn. rewrite finished_app. cbn. rewrite Nat.eqb_refl. rewrite app_length. cbn.
             split; [auto|lia].
          -- intros i. unfold upd. destruct (Nat.eqb_spec i m) as [->|]; apply (n_run _ _ _ N).
          -- intros i. rewrite E1. unfold upd. destruct (Nat.eqb_spec i m) as [->|]; apply (n_booted _ _ _ N).
          -- intros i. unfold upd. destruct (Nat.eqb_spec i m) as [->|]; [cbn; congruence|]. rewrite E2 by easy. apply (n_fin _ _ _ N).
          -- intros i. rewrite C. apply (n_cold _ _ _ N).
          -- intros i. rewrite C. apply (n_keys _ _ _ N).
          -- intros i. unfold upd. destruct (Nat.eqb_spec i m) as [->|]; apply (n_need _ _ _ N).
          -- intros i. rewrite C. unfold upd. destruct (Nat.eqb_spec i m) as [->|]; apply (n_bound _ _ _ N).
  Qed.

  Lemma sane_step s tr a s' es : bound s -> flat (s_server s) -> sane test s tr ->
    step test s a = Some (s', es) -> sane test s' (tr ++ es).
  Proof.
    intros B F N H. destruct a.
    - eapply sane_handler; eauto; easy.
    - eapply sane_handler; eauto; easy.
    - eapply sane_new; eauto.
    - eapply sane_server; eauto.
    - eapply sane_local; eauto.
    - injection H as <- <-. now apply sane_cancel.
  Qed.

  Lemma reach_sane ok s tr : reach test ok s tr -> bound s /\ flat (s_server s) /\ sane test s tr.
  Proof.
    induction 1 as [|s tr a s' es R (B & F & N) Hok H].
    - split; [apply bound_init|]. split; [easy|apply sane_init].
    - split; [eapply bound_step; eassumption|]. split; [eapply flat_step; eassumption|]. eapply sane_step; eassumption.
  Qed.
End sane.
