(** From the configuration to the generators of a run. *)
From Verif Require Import Prelude ConfigModel ConfigSpec TrxModel PipeModel PipeProofs PipeKeyProofs PipeRunProofs.
From Verif Require ScopeModel WorkloadModel WorkloadSpec ValueSpec DataModel DataSpec.
#[local] Open Scope string_scope.
#[local] Open Scope list_scope.

Definition lives_on (keys : smap key) : Prop := forall n k, sget n keys = Some k -> k_scope k = "stage" \/ k_scope k = "global".

Lemma lives_left keys : NoDup (skeys keys) -> lives_on (keys_left keys).
Proof.
  intros N n k H. unfold keys_left in H. rewrite sget_filter in H by auto. destruct (sget n keys) as [ky|]; [|discriminate]. cbn [snd] in H.
  destruct (String.eqb_spec (k_scope ky) "stage") as [E|E]; [injection H as <-; auto|].
  destruct (String.eqb_spec (k_scope ky) "global") as [E'|E']; [injection H as <-; auto|discriminate].
Qed.

Lemma stage_keys_of P cs : forall keys ks l a c set, NoDup (skeys keys) -> keyed (WorkloadSpec.carry ks) keys -> lives_on keys ->
  load_stages P cs keys = Some l -> nth_error l a = Some (c, set) ->
  exists keys0, NoDup (skeys keys0) /\ lives_on keys0 /\ load_stage P c keys0 = Some set /\
    keyed (WorkloadSpec.keys_at ks (map (fun x => stage_of P (fst x) (snd x)) l) a) (t_keys set).
Proof.
  induction cs as [|c cs IH]; intros keys ks l a c0 set0 ND K LV H Ha; cbn [load_stages] in H.
  - injection H as <-. destruct a; discriminate.
  - destruct (load_stage P c keys) as [set|] eqn:L; [|discriminate].
    destruct (load_stages P cs (keys_left (t_keys set))) as [rest|] eqn:R; [|discriminate]. injection H as <-.
    assert (X : set_ok set /\ keys_sub keys (t_keys set)).
    { unfold load_stage in L. apply load_trx_ok in L as (A & B & _); [auto|].
      split; [exact ND|]. split; [intros n ss H; discriminate H|intros n []]. }
    destruct X as [(ND' & _) SUB].
    assert (KS : keyed (WorkloadSpec.stage_keys ks (stage_of P c set)) (t_keys set)).
    { apply keyed_stage with keys; auto. intros k. reflexivity. }
    destruct a as [|a]; cbn [nth_error] in Ha.
    + injection Ha as <- <-. exists keys. cbn [map fst snd WorkloadSpec.keys_at]. auto.
    + cbn [map fst snd WorkloadSpec.keys_at]. apply (IH (keys_left (t_keys set)) _ rest a c0 set0); auto.
      * now apply nodup_filter.
      * now apply keyed_carry.
      * now apply lives_left.
Qed.

(** The generator of a configured key can be made. *)
Lemma config_made fl P cs l a key d : pe_make P = DataModel.data_make fl -> load_stages P cs [] = Some l ->
  DataSpec.configured l a key d -> DataSpec.own_key (map (fun x => stage_of P (fst x) (snd x)) l) a key ->
  exists g0, DataModel.gen_make fl (d_gen d) (d_params d) = Some g0.
Proof.
  intros PM H (c0 & set & x & Ha & _ & _ & AG & NC) (sc & SC & SG).
  destruct (stage_keys_of P cs [] WorkloadSpec.no_keys l a c0 set) as (keys0 & ND & LV & LS & KD); auto.
  { constructor. } { intros k. reflexivity. } { intros n k X. discriminate X. }
  unfold WorkloadSpec.scope_in in SC. rewrite KD in SC. destruct (sget key (t_keys set)) as [k|] eqn:EK; [|discriminate].
  cbn [option_map key_of ScopeModel.k_scope] in SC. injection SC as SC.
  unfold load_stage in LS. destruct (load_trx_origin _ _ _ _ _ LS key k EK) as [X|[X|(y & d' & Hy & Hd' & (_ & M & _))]].
  - cbn [t_keys] in X. pose proof (scope_of_left (k_scope k)) as Y.
    assert (Z : (String.eqb (k_scope k) "stage" || String.eqb (k_scope k) "global")%bool = true) by (destruct (LV _ _ X) as [-> | ->]; reflexivity).
    rewrite Z in Y. destruct (scope_of (k_scope k)) as [[]|]; try discriminate Y; subst sc; destruct SG as [G|[G|[G|G]]]; discriminate.
  - exfalso. apply X. exact (NC k eq_refl).
  - destruct (AG y d' Hy Hd') as [A B]. rewrite A, B in M. cbn [te_make tenv_of] in M. rewrite PM in M. unfold DataModel.data_make in M.
    destruct (DataModel.gen_make fl (d_gen d) (d_params d)) as [g0|]; [eauto|discriminate].
Qed.
