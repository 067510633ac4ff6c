(** Where the data keys of a trx file come from. *)
From Verif Require Import Prelude ConfigModel ConfigSpec ConfigProofs TrxModel TrxSpec TrxProofs TrxStmtProofs PipeProofs.
#[local] Open Scope list_scope.
#[local] Open Scope string_scope.

(** ** Names of data keys in the config file *)
Lemma trim_left_first p s c r : trim_left p s = String c r -> p c = false.
Proof.
  induction s as [|a s IH]; cbn; [discriminate|]. destruct (p a) eqn:E; [auto|]. intros H. now injection H as -> _.
Qed.
Lemma trim_right_first p s c r : trim_right p s = String c r -> exists r', s = String c r'.
Proof.
  destruct s as [|a s]; cbn; [discriminate|]. destruct (trim_right p s); [destruct (p a)|]; intros H; try discriminate;
    injection H as -> _; eauto.
Qed.
Lemma cfg_key_plain n : plain_name (cfg_key n).
Proof.
  intros r H. unfold cfg_key in H. apply trim_right_first in H as [r' H]. apply trim_left_first in H. discriminate.
Qed.

(** ** Configured data *)

(** [d]: what [d0] of the file has become; a key without a scope in a CSV template is row scoped. *)
Definition derived (d d0 : data) : Prop :=
  d_gen d = d_gen d0 /\ d_params d = d_params d0 /\
  (d_scope d = d_scope d0 \/ (d_scope d0 = "" /\ d_scope d = "row")).
Definition from_cfg (cfg D : smap data) : Prop := forall n d, plain_name n -> sget n D = Some d ->
  exists d0, sget n cfg = Some d0 /\ derived d d0.

Lemma from_cfg_refl cfg : from_cfg cfg cfg.
Proof. intros n d _ H. exists d. split; auto. repeat split; auto. Qed.

Lemma csv_keys_from cfg ks : forall data0 acc acc' data', csv_keys ks data0 acc = Some (acc', data') ->
  from_cfg cfg data0 -> from_cfg cfg data'.
Proof.
  induction ks as [|k ks IH]; intros data0 acc acc' data' H F; cbn [csv_keys] in H; [now injection H as _ <-|].
  cbv zeta in H. destruct (sget (cfg_key k) data0) as [d|] eqn:E; [|discriminate]. eapply IH; [exact H|].
  destruct (String.eqb_spec (d_scope d) ""); [|auto].
  intros n d' Hn Hd. rewrite sget_sset in Hd. destruct (String.eqb_spec n (cfg_key k)); [|eauto].
  subst n. injection Hd as <-. destruct (F _ _ Hn E) as (d0 & A & B & C & D). exists d0. split; auto. cbn.
  split; [auto|]. split; [auto|]. right. split; [|auto]. destruct D as [D|[D _]]; congruence.
Qed.

(** ** Keys *)

(** The key a data entry of the config file is to be: its generator, made with its params, and
    its scope (by default "statement", or "row" in a CSV template). *)
Definition made_by (T : tenv) (n : string) (d : data) (k : key) : Prop :=
  k_gen k = d_gen d /\ te_make T (d_gen d) n (d_params d) = Some (k_fmt k) /\
  (d_scope d <> "" -> k_scope k = d_scope d) /\ (d_scope d = "" -> k_scope k = "statement" \/ k_scope k = "row").

Section origin.
  Context (T : tenv) (name : string) (keys0 : smap key) (cfg : smap data).

  Definition origin (f : fstate) : Prop :=
    (forall n k, sget n (f_keys f) = Some k -> sget n keys0 = Some k \/ k_col k <> None \/
       exists d, sget (cfg_key n) cfg = Some d /\ made_by T n d k) /\
    from_cfg cfg (f_data f).

  Lemma column_origin f i c o f1 : column T name f i c = Some (o, f1) -> origin f -> origin f1.
  Proof.
    unfold column. cbv zeta. intros H [A B].
    assert (X : forall x k, k_col k <> None -> forall n k', sget n (sset x k (f_keys f)) = Some k' ->
       sget n keys0 = Some k' \/ k_col k' <> None \/ exists d, sget (cfg_key n) cfg = Some d /\ made_by T n d k').
    { intros x k Hk n k' Hs. rewrite sget_sset in Hs. destruct (String.eqb n x); [injection Hs as <-; auto|auto]. }
    destruct (String.eqb _ noop_column).
    - destruct (sget noop_column (f_keys f)); injection H as _ <-; [split; auto|]. split; cbn [f_keys f_data]; [|auto].
      apply X. discriminate.
    - destruct (sget _ (f_keys f)); [discriminate|]. destruct (te_make _ _ _ _); [|discriminate].
      injection H as _ <-. split; cbn [f_keys f_data]; [|auto]. apply X. discriminate.
  Qed.

  Lemma one_input_origin prev m f w f1 : one_input T name prev (String "@" m) f = Some (w, f1) -> origin f -> origin f1.
  Proof.
    unfold one_input. cbv zeta. intros H [A B].
    destruct (sget (String "@" m) (f_keys f)) as [k|] eqn:E.
    - destruct (k_col k); [injection H as _ <-; split; auto|].
      destruct (String.eqb _ _); [destruct (prev_gen _ _); [|discriminate]|]; injection H as _ <-; split; auto.
    - destruct (String.eqb _ _); [destruct (prev_gen _ _); [|discriminate]; injection H as _ <-; split; auto|].
      destruct (sget (cfg_key (String "@" m)) (f_data f)) as [d|] eqn:D; [|discriminate].
      destruct (te_make _ _ _ _) as [fmt|] eqn:M; [|discriminate]. injection H as _ <-.
      destruct (B _ _ (cfg_key_plain _) D) as (d0 & D0 & G & P & S). split; cbn [f_keys f_data].
      + intros n k Hk. rewrite sget_sset in Hk. destruct (String.eqb_spec n (String "@" m)); [|auto].
        subst n. injection Hk as <-. right. right. exists d0. split; [auto|]. unfold made_by. cbn [k_gen k_fmt k_scope].
        rewrite <- G, <- P. split; [auto|]. split; [auto|].
        unfold or_default. split.
        * intros NE. destruct S as [S|[S _]]; [|congruence]. rewrite S. destruct (d_scope d0); [congruence|reflexivity].
        * intros EM. destruct S as [S|[_ S]]; rewrite S; [rewrite EM; auto|auto].
      + destruct (String.eqb (d_scope d) ""); [|auto]. intros n d' Hn Hd. rewrite sget_sset in Hd.
        destruct (String.eqb_spec n (String "@" m)); [|auto]. subst n. exfalso. now apply (Hn m).
  Qed.

  Lemma expand_origin q f q' f1 : expand_csv T q f = Some (q', f1) -> origin f -> origin f1.
  Proof.
    intros H [A B]. pose proof (expand_keys _ _ _ _ _ H) as K. split; [now rewrite K|].
    unfold expand_csv in H. destruct (find_csv q) as [[[[a b] c] d]|]; [|now injection H as _ <-].
    destruct (digits_value 0 b) as [n|]; [|discriminate]. destruct (n <? 2 ^ 31)%N; [|discriminate].
    destruct (csv_keys _ _ _) as [[acc' data']|] eqn:C; [|discriminate]. injection H as _ <-. cbn [f_data snd].
    eapply csv_keys_from; eauto.
  Qed.

  Lemma load_file_origin ls ss f' : load_file T name ls keys0 cfg = Some (ss, f') ->
    forall n k, sget n (f_keys f') = Some k -> sget n keys0 = Some k \/ k_col k <> None \/
       exists d, sget (cfg_key n) cfg = Some d /\ made_by T n d k.
  Proof.
    intros H. apply (load_file_keep T name origin) in H; [apply H| | | | |].
    - intros. eapply column_origin; eauto.
    - intros. eapply one_input_origin; eauto.
    - intros. eapply expand_origin; eauto.
    - intros s f [A B]. split; auto.
    - split; cbn; auto. apply from_cfg_refl.
  Qed.
End origin.

(** ** All trx of a stage *)
Lemma load_trx_origin T read xs : forall set set', load_trx T read xs set = Some set' ->
  forall n k, sget n (t_keys set') = Some k -> sget n (t_keys set) = Some k \/ k_col k <> None \/
    exists x d, In x xs /\ sget (cfg_key n) (x_data x) = Some d /\ made_by T n d k.
Proof.
  induction xs as [|x xs IH]; intros set set' H n k Hk; cbn [load_trx] in H.
  - injection H as <-. auto.
  - destruct (read (x_file x)) as [ls|]; [|discriminate].
    destruct (load_file T (x_name x) ls (t_keys set) (x_data x)) as [[ss f]|] eqn:E; [|discriminate]. cbn [fst snd] in H.
    destruct (IH _ _ H n k Hk) as [X|[X|(y & d & A & B & C)]].
    + cbn [t_keys] in X. destruct (load_file_origin _ _ _ _ _ _ _ E n k X) as [Y|[Y|(d & Y & Z)]]; auto.
      right. right. exists x, d. split; [now left|auto].
    + auto.
    + right. right. exists y, d. split; [now right|auto].
Qed.
