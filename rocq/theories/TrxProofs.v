(** Proofs about File.statements: data keys of a statement, CSV expansion. *)
From Coq Require Import Permutation.
From Verif Require Import Prelude ConfigModel ConfigSpec ConfigVarsProofs ConfigProofs TrxModel TrxSpec TrxKeyProofs
  TrxRowProofs.
#[local] Open Scope list_scope.
#[local] Open Scope string_scope.

(** ** Trimming *)
Lemma is_ws_spec c : is_ws c = true <-> ws c.
Proof.
  unfold is_ws, ws. rewrite orb_true_iff, is_space_white, Nat.eqb_eq. unfold white. cbn [In]. intuition lia.
Qed.
Lemma is_ws_false c : ~ ws c -> is_ws c = false.
Proof. intros H. destruct (is_ws c) eqn:E; auto. apply is_ws_spec in E. tauto. Qed.

Lemma trim_left_id s : ~ starts ws s -> trim_left is_ws s = s.
Proof. destruct s as [|c s]; cbn; auto. intros H. now rewrite is_ws_false. Qed.
Lemma trim_right_id s : (forall a c, s = a ++ String c "" -> ~ ws c) -> trim_right is_ws s = s.
Proof.
  induction s as [|c s IH]; auto. intros H. cbn [trim_right]. rewrite IH.
  - destruct s; auto. rewrite is_ws_false; auto. now apply (H "" c).
  - intros a d ->. now apply (H (String c a) d).
Qed.
Lemma trim_space_id s : no_margin s -> trim_space s = s.
Proof. intros [H1 H2]. unfold trim_space. rewrite trim_left_id by auto. now apply trim_right_id. Qed.
Lemma trim_right_ws s w : every ws w -> trim_right is_ws (s ++ w) = trim_right is_ws s.
Proof.
  intros H. induction s as [|c s IH]; cbn [append trim_right].
  - induction w as [|c w IH]; auto. destruct H as [H1 H2]. cbn [trim_right]. rewrite IH by auto.
    apply is_ws_spec in H1. now rewrite H1.
  - now rewrite IH.
Qed.
Lemma trim_space_pad s w : no_margin s -> every ws w -> trim_space (s ++ w) = s.
Proof.
  intros [H1 H2] Hw. unfold trim_space. destruct s as [|c s].
  - cbn. replace (trim_left is_ws w) with "".
    + reflexivity.
    + symmetry. induction w as [|c w IH]; auto. destruct Hw as [A B]. cbn. apply is_ws_spec in A. now rewrite A, IH.
  - rewrite trim_left_id by exact H1. rewrite trim_right_ws by auto. now apply trim_right_id.
Qed.
Lemma trim_left_margin s : ~ starts ws (trim_left is_ws s).
Proof. induction s as [|c s IH]; cbn [trim_left]; [easy|]. destruct (is_ws c) eqn:E; auto. cbn [starts]. rewrite <- is_ws_spec. congruence. Qed.
Lemma trim_right_margin s a c : trim_right is_ws s = a ++ String c "" -> ~ ws c.
Proof.
  revert a; induction s as [|d s IH]; intros a; cbn [trim_right].
  - destruct a; discriminate.
  - destruct (trim_right is_ws s) as [|e t] eqn:E.
    + destruct (is_ws d) eqn:W; [destruct a; discriminate|]. destruct a as [|x a]; [|destruct a; discriminate].
      cbn [append]. intros [= ->]. rewrite <- is_ws_spec. congruence.
    + destruct a as [|x a]; [discriminate|]. cbn. intros [= -> H]. now apply (IH a).
Qed.
Lemma starts_trim_right s : starts ws (trim_right is_ws s) -> starts ws s.
Proof.
  destruct s as [|c s]; cbn; auto. destruct (trim_right is_ws s); [|auto]. destruct (is_ws c); auto. easy.
Qed.
Lemma trim_space_margin s : no_margin (trim_space s).
Proof.
  split.
  - unfold trim_space. intros H. apply starts_trim_right in H. now apply trim_left_margin in H.
  - intros a c. apply trim_right_margin.
Qed.

(** ** Texts without special comments *)
Lemma occurs_cons sub c s : occurs sub s -> occurs sub (String c s).
Proof. intros (a & b & ->). now exists (String c a), b. Qed.
Lemma occurs_head sub s : occurs sub (sub ++ s).
Proof. now exists "", s. Qed.
Lemma occurs_le sub sub' s : occurs sub' sub -> occurs sub s -> occurs sub' s.
Proof. intros (a & b & ->) (x & y & ->). exists (x ++ a), (b ++ y). now rewrite !sapp_assoc. Qed.

Lemma replace_none pairs fuel s : (forall o w, In (o, w) pairs -> ~ occurs o s) -> replace pairs fuel s = s.
Proof.
  revert s; induction fuel as [|fuel IH]; intros s H; [reflexivity|]. destruct s as [|c s]; [reflexivity|].
  cbn [replace]. rewrite first_old_none.
  - f_equal. apply IH. intros o w Ho X. apply (H o w Ho). now apply occurs_cons.
  - apply Forall_forall. intros [o w] Ho. apply strip_prefix_none. intros r Hr. apply (H o w Ho).
    cbn [fst] in Hr. rewrite Hr. apply occurs_head.
Qed.
Lemma replace_copy_none q n : ~ occurs copy_number q -> replace_copy q n = q.
Proof. intros H. apply replace_none. intros o w [[= <- <-]|[]]. exact H. Qed.

Lemma csv_at_none s : (forall r, s <> "/*!csv" ++ r) -> csv_at s = None.
Proof. intros H. unfold csv_at. now rewrite strip_prefix_none. Qed.
Lemma find_csv_none s : ~ occurs "/*!csv" s -> find_csv s = None.
Proof.
  induction s as [|c s IH]; intros H; [reflexivity|]. cbn [find_csv]. rewrite csv_at_none, IH; auto.
  - intros X. apply H. now apply occurs_cons.
  - intros r Hr. apply H. rewrite Hr. apply occurs_head.
Qed.

(** ** The CSV substitution *)
Lemma find_csv_skip a s : ~ occurs "/*!csv" a -> (exists r, s = "/*!csv" ++ r) ->
  find_csv (a ++ s) = match find_csv s with Some (b, ds, t, r) => Some (a ++ b, ds, t, r) | None => None end.
Proof.
  intros Ha [r Hs]. induction a as [|c a IH]; [cbn [append]; destruct (find_csv s) as [[[[? ?] ?] ?]|]; reflexivity|].
  assert (Ha' : ~ occurs "/*!csv" a) by (intros X; apply Ha; now apply occurs_cons).
  cbn [append find_csv]. rewrite csv_at_none.
  - rewrite IH by auto. destruct (find_csv s) as [[[[? ?] ?] ?]|]; reflexivity.
  - intros x Hx. change (String c (a ++ s)) with (String c a ++ s) in Hx.
    destruct (app_split _ _ _ _ Hx) as [[t Ht]|[t Ht]].
    + apply Ha. rewrite Ht. apply occurs_head.
    + rewrite Ht in Hx. rewrite sapp_assoc in Hx. apply sapp_inj_l in Hx. rewrite Hs in Hx.
      cbn in Ht. injection Ht as <- Ht.
      destruct t as [|d t]; [apply Ha; rewrite sapp_nil in Ht; subst; exists "", ""; reflexivity|].
      cbn in Hx. injection Hx as <- _.
      assert (X : every (fun c => c <> "/"%char) (a ++ String "/" t)) by (rewrite <- Ht; cbn; repeat split; discriminate).
      apply every_app in X as [_ [X _]]. congruence.
Qed.
Lemma last_close_none s : ~ occurs "*/" s -> last_close s = None.
Proof.
  induction s as [|c s IH]; intros H; [reflexivity|]. cbn [last_close]. rewrite IH by (intros X; apply H; now apply occurs_cons).
  rewrite strip_prefix_none; auto. intros r Hr. apply H. rewrite Hr. apply occurs_head.
Qed.
Lemma last_close_last a b : ~ occurs "*/" b -> last_close (a ++ "*/" ++ b) = Some (a, b).
Proof.
  intros H. induction a as [|c a IH].
  - cbn [append last_close]. now rewrite last_close_none by auto.
  - cbn [append last_close]. cbn [append] in IH. now rewrite IH.
Qed.

Lemma is_digit_space c : is_digit c = true -> is_space c = false.
Proof.
  intros H. apply is_digit_digit in H. destruct (is_space c) eqn:E; auto. apply is_space_white in E.
  unfold digit, white in *. cbn [In] in E. intuition lia.
Qed.

Lemma find_csv_text ds t b : ds <> "" -> every digit ds -> t <> "" -> ~ occurs "*/" b ->
  find_csv ("/*!csv " ++ ds ++ " " ++ t ++ "*/" ++ b) = Some ("", ds, t, b).
Proof.
  intros Hd He Ht Hb. 
  assert (E : csv_at ("/*!csv " ++ ds ++ " " ++ t ++ "*/" ++ b) = Some (ds, t, b)).
  { unfold csv_at. change ("/*!csv " ++ ds ++ " " ++ t ++ "*/" ++ b) with ("/*!csv" ++ " " ++ ds ++ " " ++ t ++ "*/" ++ b).
    rewrite strip_prefix_app. rewrite span_app.
    - rewrite span_app.
      + cbn [append]. destruct ds as [|d ds]; [congruence|]. destruct t as [|x t]; [congruence|].
        cbn [append]. change (is_space " ") with true. cbn iota.
        change (String "*" (String "/" b)) with ("*/" ++ b). now rewrite last_close_last.
      + eapply every_impl; [|exact He]. intros c. apply is_digit_digit.
      + reflexivity.
    - now cbn.
    - destruct ds as [|d ds]; [congruence|]. cbn. apply is_digit_space. apply is_digit_digit. apply He. }
  change ("/*!csv " ++ ds ++ " " ++ t ++ "*/" ++ b) with (String "/" ("*!csv " ++ ds ++ " " ++ t ++ "*/" ++ b)) in *.
  cbn [find_csv]. now rewrite E.
Qed.

(** The row scoped keys of a template. *)
Definition rowish (data0 : smap data) (n : string) : Prop :=
  exists d, sget n data0 = Some d /\ (d_scope d = "" \/ d_scope d = "row").

Lemma cfg_key_name n : every name_char n -> n <> "" -> forall c, cfg_key (tok_text (TKey n c)) = n.
Proof.
  intros H Hn c.
  assert (X : forall x, name_char x -> cfg_char x = false).
  { intros x Hx. unfold cfg_char. destruct (Ascii.eqb_spec x "@"); [subst; now apply name_char_at in Hx|].
    destruct (Ascii.eqb_spec x "("); [subst; now apply name_char_paren in Hx|].
    destruct (Ascii.eqb_spec x ")"); [subst; apply key_char_spec in Hx; discriminate|reflexivity]. }
  unfold cfg_key. cbn [tok_text append trim_left]. change (cfg_char "@") with true. cbn iota.
  assert (Y : trim_left cfg_char (n ++ (if c then "()" else "")) = n ++ (if c then "()" else "")).
  { destruct n as [|x n]; [congruence|]. cbn. now rewrite X by apply H. }
  rewrite Y. clear Y.
  assert (Z : trim_right cfg_char n = n).
  { clear Hn. induction n as [|x n IH]; auto. destruct H as [H1 H2]. cbn [trim_right]. rewrite IH by auto.
    destruct n; auto. now rewrite X. }
  destruct c; [|now rewrite sapp_nil].
  rewrite <- Z at 2. clear. induction n as [|x n IH]; [reflexivity|]. cbn [append trim_right]. now rewrite IH.
Qed.

Lemma csv_keys_spec l : clear l -> forall data0 acc acc' data',
  csv_keys (key_texts l) data0 acc = Some (acc', data') ->
  (forall k, In k acc' <-> In k acc \/ exists n, k = "@" ++ n /\ In k (key_names l) /\ rowish data0 n) /\
  (NoDup acc -> NoDup acc') /\
  (forall n, rowish data' n <-> rowish data0 n).
Proof.
  induction l as [|[s|n c] l IH]; intros Hc data0 acc acc' data' H.
  - cbn in H. injection H as <- <-. cbn. split; [|tauto]. intros k. split; [tauto|]. intros [?|(n & _ & [] & _)]. auto.
  - apply IH; [apply Hc|exact H].
  - destruct Hc as [(Hn & He & _) Hc]. cbn [key_texts flat_map app csv_keys] in H.
    rewrite cfg_key_name in H by auto. destruct (sget n data0) as [d|] eqn:Ed; [|discriminate].
    set (d1 := if String.eqb (d_scope d) "" then Data (d_name d) (d_gen d) "row" (d_params d) else d) in *.
    set (data1 := if String.eqb (d_scope d) "" then sset n d1 data0 else data0) in *.
    assert (R1 : forall m, rowish data1 m <-> rowish data0 m).
    { intros m. unfold data1. destruct (String.eqb_spec (d_scope d) "") as [E|E]; [|tauto].
      unfold rowish. rewrite sget_sset. destruct (String.eqb_spec m n) as [->|X]; [|tauto].
      unfold d1. destruct (String.eqb_spec (d_scope d) ""); [|congruence].
      split; intros _; eexists; (split; [eauto|]); cbn; auto. }
    assert (R2 : rowish data0 n <-> String.eqb (d_scope d1) "row" = true).
    { unfold rowish. rewrite Ed. unfold d1. destruct (String.eqb_spec (d_scope d) "") as [E|E].
      - cbn. split; eauto.
      - rewrite String.eqb_eq. split; [intros (x & [= <-] & [X|X]); congruence|eauto]. }
    apply IH in H as (A & B & C); auto. split; [|split].
    + intros k. rewrite A. clear A B C. cbn [key_names In].
      assert (G : In k (if (String.eqb (d_scope d1) "row" && negb (existsb (String.eqb ("@" ++ n)) acc))%bool
                        then (acc ++ [("@" ++ n)%string])%list else acc) <->
                  In k acc \/ (k = "@" ++ n /\ rowish data0 n)).
      { rewrite R2. destruct (String.eqb (d_scope d1) "row"); cbn [andb]; [|intuition discriminate].
        destruct (existsb _ acc) eqn:X; cbn [negb].
        - apply existsb_exists in X as (y & Hy & E). apply String.eqb_eq in E. subst y.
          split; [tauto|]. intros [?|[-> _]]; auto.
        - rewrite in_app_iff. cbn. intuition (subst; auto). }
      rewrite G. split.
      * intros [[H|[-> H]]|(m & -> & H1 & H2)]; auto; right; [exists n|exists m]; rewrite ?R1 in *; auto.
      * intros [H|(m & -> & [H1|H1] & H2)]; auto.
        -- left. right. cbn in H1. injection H1 as ->. auto.
        -- right. exists m. now rewrite R1.
    + intros ND. apply B. destruct (existsb _ acc) eqn:X; cbn [negb]; [now rewrite andb_false_r|].
      rewrite andb_true_r. destruct (String.eqb (d_scope d1) "row"); auto. apply Permutation_NoDup with (("@" ++ n) :: acc); [apply Permutation_cons_append|].
      constructor; auto. intros Hy. assert (Z : existsb (String.eqb ("@" ++ n)) acc = true)
        by (apply existsb_exists; exists ("@" ++ n); rewrite String.eqb_refl; auto). congruence.
    + intros m. rewrite C. apply R1.
Qed.

(** ** The inputs of a statement *)
Section file.
  Context (T : tenv) (name : string).

  Lemma prev_gen_last keys prev : prev_gen keys prev =
    match find (fun p => negb (String.eqb p "@PREV")) prev with Some p => sget p keys | None => None end.
  Proof. induction prev as [|p prev IH]; cbn; auto. destruct (String.eqb p "@PREV"); cbn; auto. Qed.

  Definition key_fmt (prepare : bool) (f : fstate) (k : string) : string :=
    if prepare then "?" else match sget k (f_keys f) with Some x => k_fmt x | None => "" end.

  Definition keys_le (f f' : fstate) := forall k v, sget k (f_keys f) = Some v -> sget k (f_keys f') = Some v.

  (** What one round of [inputs] does. *)
  Definition one_input (prev : list string) (n : string) (f : fstate) : option (string * fstate) :=
    match sget n (f_keys f) with
    | Some k =>
        match k_col k with
        | Some _ =>
            let c := match sget n (f_refs f) with Some c => c | None => 0%nat end in
            Some (k_fmt k, FState (f_keys f) (sset n (S c) (f_refs f)) (f_data f) (f_ddl f))
        | None =>
            if String.eqb n "@PREV"
            then match prev_gen (f_keys f) prev with Some p => Some (k_fmt p, f) | None => None end
            else Some (k_fmt k, f)
        end
    | None =>
        if String.eqb n "@PREV"
        then match prev_gen (f_keys f) prev with Some p => Some (k_fmt p, f) | None => None end
        else
          match sget (cfg_key n) (f_data f) with
          | None => None
          | Some d =>
              let sc := or_default (d_scope d) "statement" in
              let data1 := if String.eqb (d_scope d) ""
                           then sset n (Data (d_name d) (d_gen d) sc (d_params d)) (f_data f)
                           else f_data f in
              match te_make T (d_gen d) n (d_params d) with
              | None => None
              | Some fmt =>
                  Some (fmt, FState (sset n (Key name None sc (d_gen d) fmt) (f_keys f))
                                    (f_refs f) data1 (f_ddl f))
              end
          end
    end.
  Lemma inputs_cons pr k ks prev f fmts : inputs T name pr (k :: ks) prev f fmts =
    match one_input prev (trim_call k) f with
    | Some (fmt, f1) => inputs T name pr ks (trim_call k :: prev) f1 (sset (trim_call k) (if pr then "?" else fmt) fmts)
    | None => None
    end.
  Proof.
    cbn [inputs]. fold (one_input prev (trim_call k) f). destruct (one_input prev (trim_call k) f) as [[fmt f1]|]; reflexivity.
  Qed.

  (** The key a [@PREV] after [prev] refers to, else the key itself. *)
  Definition refers (prev : list string) (n : string) : string :=
    if String.eqb n "@PREV"
    then match find (fun p => negb (String.eqb p "@PREV")) prev with Some p => p | None => "" end
    else n.

  Lemma one_input_spec prev n f fmt f1 : one_input prev n f = Some (fmt, f1) ->
    sget "@PREV" (f_keys f1) = None ->
    keys_le f f1 /\ (n <> "@PREV" -> sget n (f_keys f1) <> None) /\
    (n = "@PREV" -> exists p, find (fun p => negb (String.eqb p "@PREV")) prev = Some p /\ sget p (f_keys f1) <> None) /\
    fmt = match sget (refers prev n) (f_keys f1) with Some x => k_fmt x | None => "" end.
  Proof.
    unfold one_input. intros H NP.
    assert (P : forall f1, match prev_gen (f_keys f1) prev with Some p => Some (k_fmt p, f1) | None => None end = Some (fmt, f1) ->
      n = "@PREV" -> (exists p, find (fun p => negb (String.eqb p "@PREV")) prev = Some p /\ sget p (f_keys f1) <> None) /\
      fmt = match sget (refers prev n) (f_keys f1) with Some x => k_fmt x | None => "" end).
    { intros g Hg ->. unfold refers. cbn [String.eqb]. rewrite prev_gen_last in Hg.
      destruct (find _ prev) as [p|] eqn:E; [|discriminate]. destruct (sget p (f_keys g)) as [x|] eqn:Ep; [|discriminate].
      injection Hg as <-. split; [exists p; split; [auto|congruence]|]. cbn. now rewrite Ep. }
    destruct (sget n (f_keys f)) as [k|] eqn:E.
    - destruct (k_col k).
      + injection H as <- <-. cbn [f_keys] in *.
        assert (n <> "@PREV") by (intros ->; congruence). split; [intros ? ?; auto|].
        split; [intros _; congruence|]. split; [easy|]. unfold refers. destruct (String.eqb_spec n "@PREV"); [easy|]. now rewrite E.
      + destruct (String.eqb_spec n "@PREV") as [->|X].
        * assert (f1 = f) as -> by (destruct (prev_gen _ _); congruence). congruence.
        * injection H as <- <-. split; [intros ? ?; auto|]. split; [intros _; congruence|]. split; [easy|].
          unfold refers. destruct (String.eqb_spec n "@PREV"); [easy|]. now rewrite E.
    - destruct (String.eqb_spec n "@PREV") as [->|X].
      + assert (f1 = f) as -> by (destruct (prev_gen _ _); congruence).
        destruct (P f H eq_refl) as [A B]. split; [intros ? ?; auto|]. split; [easy|]. split; auto.
      + destruct (sget (cfg_key n) (f_data f)) as [d|]; [|discriminate].
        destruct (te_make T (d_gen d) n (d_params d)) as [w|]; [|discriminate]. injection H as <- <-. cbn [f_keys] in *.
        split; [|split; [|split; [easy|]]].
        * intros k v Hk. cbn [f_keys]. rewrite sget_sset. destruct (String.eqb_spec k n); [congruence|auto].
        * intros _. rewrite sget_sset, String.eqb_refl. discriminate.
        * unfold refers. destruct (String.eqb_spec n "@PREV"); [easy|]. now rewrite sget_sset, String.eqb_refl.
  Qed.

  Lemma one_input_mono prev n f fmt f1 : one_input prev n f = Some (fmt, f1) -> keys_le f f1.
  Proof.
    unfold one_input. intros H k v Hk.
    destruct (sget n (f_keys f)) as [x|] eqn:E.
    - destruct (k_col x); [injection H as <- <-; auto|].
      destruct (String.eqb n "@PREV"); [destruct (prev_gen _ _); [|discriminate]|]; injection H as <- <-; auto.
    - destruct (String.eqb n "@PREV"); [destruct (prev_gen _ _); [|discriminate]; injection H as <- <-; auto|].
      destruct (sget (cfg_key n) (f_data f)) as [d|]; [|discriminate].
      destruct (te_make T (d_gen d) n (d_params d)) as [w|]; [|discriminate]. injection H as <- <-. cbn [f_keys].
      rewrite sget_sset. destruct (String.eqb_spec k n); [congruence|auto].
  Qed.
  Lemma inputs_mono pr ks prev f fmts ins f' fmts' :
    inputs T name pr ks prev f fmts = Some (ins, f', fmts') -> keys_le f f'.
  Proof.
    revert prev f fmts; induction ks as [|k ks IH]; intros prev f fmts.
    - cbn. intros [= _ <- _] ? ?. auto.
    - rewrite inputs_cons. destruct (one_input _ _ _) as [[w f1]|] eqn:E; [|discriminate].
      intros H. apply IH in H. apply one_input_mono in E. intros ? ? ?. auto.
  Qed.

  (** The keys that the @PREV of a list of keys refer to. *)
  Fixpoint prev_refs (prev ks : list string) : list string :=
    match ks with
    | [] => []
    | k :: ks' => (if String.eqb k "@PREV" then [refers prev k] else []) ++ prev_refs (k :: prev) ks'
    end%list.

  Lemma inputs_spec pr ks : forall prev f fmts ins f' fmts',
    inputs T name pr ks prev f fmts = Some (ins, f', fmts') -> sget "@PREV" (f_keys f') = None ->
    NoDup (skeys fmts) ->
    ins = (rev prev ++ map trim_call ks)%list /\
    NoDup (skeys fmts') /\
    (forall k, In k (skeys fmts') <-> In k (skeys fmts) \/ In k (map trim_call ks)) /\
    (forall k, ~ In k (map trim_call ks) -> sget k fmts' = sget k fmts) /\
    (forall k, In k (map trim_call ks) -> k <> "@PREV" ->
       sget k fmts' = Some (key_fmt pr f' k) /\ sget k (f_keys f') <> None) /\
    (In "@PREV" (map trim_call ks) -> exists p, In p (prev_refs prev (map trim_call ks)) /\
       sget "@PREV" fmts' = Some (key_fmt pr f' p) /\ sget p (f_keys f') <> None).
  Proof.
    induction ks as [|k0 ks IH]; intros prev f fmts ins f' fmts' H NP ND.
    - cbn in H. injection H as <- <- <-. cbn [map]. rewrite app_nil_r. repeat match goal with |- _ /\ _ => split end; auto; cbn; tauto.
    - rewrite inputs_cons in H. cbn [map]. set (n := trim_call k0) in *.
      destruct (one_input prev n f) as [[fmt f1]|] eqn:E; [|discriminate].
      assert (LE : keys_le f1 f') by (eapply inputs_mono; eauto).
      assert (NP1 : sget "@PREV" (f_keys f1) = None).
      { destruct (sget "@PREV" (f_keys f1)) eqn:X; auto. apply LE in X. congruence. }
      destruct (one_input_spec _ _ _ _ _ E NP1) as (_ & A & B & C).
      apply IH in H as (I1 & I2 & I3 & I4 & I5 & I6); auto; [|now apply nodup_sset].
      assert (FM : (if pr then "?" else fmt) = key_fmt pr f' (refers prev n)).
      { unfold key_fmt. destruct pr; auto. rewrite C.
        assert (X : sget (refers prev n) (f_keys f1) <> None).
        { unfold refers. destruct (String.eqb_spec n "@PREV") as [Y|Y]; [|auto].
          destruct (B Y) as (p & -> & Hp). exact Hp. }
        destruct (sget (refers prev n) (f_keys f1)) as [x|] eqn:Y; [|congruence]. now rewrite (LE _ _ Y). }
      split; [rewrite I1; cbn [rev]; now rewrite <- app_assoc|]. split; [auto|]. split; [|split; [|split]].
      + intros k. rewrite I3, (skeys_sset n _ fmts k). cbn [In]. intuition congruence.
      + intros k Hk. cbn [In] in Hk. rewrite I4 by tauto. rewrite sget_sset. destruct (String.eqb_spec k n); [subst; tauto|auto].
      + intros k Hk Hp. destruct (in_dec string_dec k (map trim_call ks)) as [Y|Y]; [auto|].
        destruct Hk as [Hk|Hk]; [|tauto]. rewrite I4 by auto. rewrite sget_sset. subst k. rewrite String.eqb_refl.
        rewrite FM. unfold refers. destruct (String.eqb_spec n "@PREV"); [tauto|]. split; auto.
        specialize (A Hp). destruct (sget n (f_keys f1)) as [x|] eqn:Z; [|congruence]. rewrite (LE _ _ Z). discriminate.
      + intros Hk. destruct (in_dec string_dec "@PREV" (map trim_call ks)) as [Y|Y].
        * destruct (I6 Y) as (p & Hp & Hs). exists p. split; auto. cbn [prev_refs]. apply in_or_app. auto.
        * destruct Hk as [Hk|Hk]; [|tauto]. rewrite I4 by auto. rewrite sget_sset. rewrite Hk, String.eqb_refl.
          exists (refers prev n). rewrite FM. split; [|split; auto].
          -- cbn [prev_refs]. apply in_or_app. left. rewrite Hk, String.eqb_refl. now left.
          -- destruct (B Hk) as (p & Ep & Hp). unfold refers. rewrite Hk, String.eqb_refl, Ep.
             destruct (sget p (f_keys f1)) as [x|] eqn:Z; [|congruence]. rewrite (LE _ _ Z). discriminate.
  Qed.

  (** ** From the query to the statement *)
  Lemma key_prev n : String.eqb ("@" ++ n) "@PREV" = String.eqb n "PREV".
  Proof. reflexivity. Qed.

  Lemma prev_refs_prevs l : forall prev last,
    last = match find (fun p => negb (String.eqb p "@PREV")) prev with Some p => p | None => "" end ->
    prev_refs prev (key_names l) = prevs last l.
  Proof.
    induction l as [|[s|n c] l IH]; intros prev last H; cbn [key_names prev_refs prevs]; auto.
    rewrite key_prev. unfold refers. rewrite key_prev. destruct (String.eqb n "PREV") eqn:E; cbn [app].
    - rewrite <- H. f_equal. apply IH. cbn [find]. rewrite key_prev, E. exact H.
    - apply IH. cbn [find]. now rewrite key_prev, E.
  Qed.

  Lemma subst_filled (g F : string -> string) l : forall last,
    (forall k, In k (key_names l) -> k <> "@PREV" -> g k = F k) ->
    (forall p, In p (prevs last l) -> g "@PREV" = F p) ->
    subst_keys g l = filled F last l.
  Proof.
    induction l as [|[s|n c] l IH]; intros last H1 H2; cbn [subst_keys filled]; auto; [now rewrite (IH last)|].
    cbn [prevs] in H2. destruct (String.eqb_spec n "PREV") as [->|E].
    - change ("@" ++ "PREV") with "@PREV". rewrite (H2 last) by now left. f_equal. apply IH.
      + intros k Hk. apply H1. now right.
      + intros p Hp. apply H2. now right.
    - rewrite H1; [|now left|intros X; apply E; cbn in X; congruence]. f_equal. apply IH; auto.
      intros k Hk. apply H1. now right.
  Qed.
  Lemma filled_nokey F last l : key_names l = [] -> filled F last l = sql l.
  Proof. induction l as [|[s|n c] l IH]; cbn [key_names filled sql]; auto; [intros; now rewrite IH|discriminate]. Qed.

  Definition bind_stmt (query : string) (s : pstmt) (f : fstate) : option (pstmt * fstate) :=
    match find_keys query with
    | [] => Some (set_query s query [] [], f)
    | ks =>
        match inputs T name (p_prepare s) ks [] f [] with
        | Some (ins, f', fmts) =>
            Some (set_query s (replace_keys T fmts (strip_calls (String.length query) query)) ins (calls ks), f')
        | None => None
        end
    end.
  Lemma finish_bind cn q s f : finish T name cn q s f =
    match expand_csv T (replace_copy q cn) f with Some (q', f1) => bind_stmt q' s f1 | None => None end.
  Proof.
    unfold finish, bind_stmt. destruct (expand_csv T (replace_copy q cn) f) as [[q' f1]|]; [|reflexivity]. cbn [fst snd].
    destruct (find_keys q') as [|k ks]; [reflexivity|].
    destruct (inputs T name (p_prepare s) (k :: ks) [] f1 []) as [[[ins f'] fmts]|]; reflexivity.
  Qed.

  Lemma calls_nil_keys l : key_texts l = [] <-> key_names l = [].
  Proof. induction l as [|[s|n c] l IH]; cbn [key_texts key_names flat_map app]; [tauto|exact IH|split; discriminate]. Qed.
  Lemma nokey_calls l : key_names l = [] -> key_calls l = [].
  Proof. induction l as [|[s|n c] l IH]; cbn [key_names key_calls]; auto; discriminate. Qed.

  Lemma bind_inv l s f s' f' : clear l -> bind_stmt (sql l) s f = Some (s', f') ->
    exists q, s' = set_query s q (key_names l) (key_calls l) /\ keys_le f f'.
  Proof.
    intros Cl. unfold bind_stmt. rewrite find_keys_sql by auto.
    destruct (key_texts l) as [|k ks] eqn:E.
    - apply calls_nil_keys in E. intros [= <- <-]. rewrite E, nokey_calls by auto. eexists; split; [reflexivity|intros ? ?; auto].
    - rewrite <- E. destruct (inputs _ _ _ _ _ _ _) as [[[ins f1] fmts]|] eqn:I; [|discriminate].
      intros [= <- <-]. assert (X : ins = key_names l).
      { clear -I Cl. rewrite <- trims_texts by auto. revert I. generalize (key_texts l).
        enough (G : forall ks prev f fm, inputs T name (p_prepare s) ks prev f fm = Some (ins, f1, fmts) -> ins = (rev prev ++ map trim_call ks)%list)
          by (intros ks I; now apply G in I).
        induction ks as [|k ks IH]; intros prev g fm.
        - cbn. intros [= <- _ _]. now rewrite app_nil_r.
        - rewrite inputs_cons. destruct (one_input _ _ _) as [[w g1]|]; [|discriminate]. intros H. apply IH in H.
          rewrite H. cbn [rev map]. now rewrite <- app_assoc. }
      subst ins. rewrite calls_texts by auto. eexists; split; [reflexivity|]. eapply inputs_mono; eauto.
  Qed.

  Hypothesis ORDER : forall ks, Permutation (te_order T ks) ks.

  Lemma bind_query l s f s' f1 f' : clear l -> keys_prefix_free (key_names l) ->
    bind_stmt (sql l) s f = Some (s', f1) -> keys_le f1 f' -> sget "@PREV" (f_keys f') = None ->
    (forall a b, In a (prevs "" l) -> In b (prevs "" l) -> key_fmt (p_prepare s) f' a = key_fmt (p_prepare s) f' b) ->
    p_query s' = filled (key_fmt (p_prepare s) f') "" l.
  Proof.
    intros Cl PF H LE NP AG. unfold bind_stmt in H. rewrite find_keys_sql in H by auto.
    destruct (key_texts l) as [|k ks] eqn:E.
    - apply calls_nil_keys in E. injection H as <- <-. cbn. now rewrite filled_nokey.
    - rewrite <- E in H. destruct (inputs _ _ _ _ _ _ _) as [[[ins f2] fmts]|] eqn:I; [|discriminate].
      injection H as <- <-. cbn [p_query set_query].
      assert (NP1 : sget "@PREV" (f_keys f2) = None).
      { destruct (sget "@PREV" (f_keys f2)) eqn:X; auto. apply LE in X. congruence. }
      assert (LF : forall k, sget k (f_keys f2) <> None -> key_fmt (p_prepare s) f2 k = key_fmt (p_prepare s) f' k).
      { intros x Hx. unfold key_fmt. destruct (p_prepare s); auto. destruct (sget x (f_keys f2)) as [v|] eqn:Y; [|congruence].
        now rewrite (LE _ _ Y). }
      apply inputs_spec in I as (_ & ND & KS & _ & VAL & PV); auto; [|constructor].
      rewrite trims_texts in * by auto. 
      set (g := fun k => match sget k fmts with Some v => v | None => "" end).
      transitivity (subst_keys g l).
      + unfold replace_keys. rewrite strip_calls_sql by auto. apply replace_sql; auto.
        * apply Forall_forall. intros [a b] Hab. apply in_map_iff in Hab as (x & [= <- <-] & Hx). cbn [fst].
          apply (clear_shape l); auto. apply (Permutation_in _ (ORDER _)) in Hx. apply KS in Hx. now destruct Hx.
        * intros a b Hab. apply in_map_iff in Hab as (x & [= <- <-] & Hx).
          apply (Permutation_in _ (ORDER _)) in Hx. apply KS in Hx as [[]|Hx]. auto.
        * intros x Hx. apply in_map_iff. exists x. split; auto. apply (Permutation_in _ (Permutation_sym (ORDER _))).
          apply KS. auto.
      + apply subst_filled.
        * intros x Hx Hp. unfold g. destruct (VAL x Hx Hp) as [-> A]. auto.
        * intros p Hp. assert (X : In "@PREV" (key_names l)).
          { clear -Hp. enough (G : forall last, In p (prevs last l) -> In "@PREV" (key_names l)) by eauto.
            clear Hp. induction l as [|[s|n c] l IH]; intros last; cbn [prevs key_names]; [easy|apply IH|].
            destruct (String.eqb_spec n "PREV") as [->|E]; [now left|]. intros H. right. eapply IH; eauto. }
          destruct (PV X) as (p0 & Hp0 & Hs & Hk). rewrite (prev_refs_prevs l [] "") in Hp0 by reflexivity.
          unfold g. rewrite Hs. rewrite LF by auto. now apply AG.
  Qed.
End file.
