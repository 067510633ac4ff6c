(** Proofs about the modifiers of a statement. *)
From Verif Require Import Prelude ConfigModel ConfigSpec ConfigVarsProofs ConfigProofs TrxModel TrxSpec TrxProofs TrxCopyProofs TrxCsvProofs TrxModSpec.
#[local] Open Scope list_scope.
#[local] Open Scope string_scope.

Lemma app_assoc_s a b c : (a ++ b) ++ c = a ++ (b ++ c).
Proof. induction a; cbn; congruence. Qed.
Lemma app_nil_s a : a ++ "" = a.
Proof. induction a; cbn; congruence. Qed.
Lemma every_app_s P a b : every P (a ++ b) <-> every P a /\ every P b.
Proof. induction a as [|c a IH]; cbn [append every]; [tauto|]. rewrite IH. tauto. Qed.

Lemma string_app_length a b : String.length (a ++ b) = (String.length a + String.length b)%nat.
Proof. induction a; cbn; auto. Qed.

(** ** Words *)
Lemma fields_from_words s : forall acc, every (fun c => ~ ws c) acc -> words (acc ++ s) (fields_from acc s).
Proof.
  induction s as [|c s IH]; intros acc Ha.
  - cbn. rewrite app_nil_s. destruct acc as [|d acc]; [now constructor|]. apply (words_last "" (String d acc)); auto; [exact I|discriminate].
  - cbn [fields_from]. destruct (is_ws c) eqn:W.
    + apply is_ws_spec in W. destruct acc as [|d acc].
      * specialize (IH "" I). cbn [append] in *. remember (fields_from "" s) as l. clear Heql. destruct IH as [b Hb|b w Hb|b w c' s l Hb].
        -- constructor. split; auto.
        -- apply (words_last (String c b) w); auto. split; auto.
        -- apply (words_more (String c b) w c' s l); auto. split; auto.
      * apply (words_more "" (String d acc) c s); auto; [exact I|discriminate|]. apply (IH "" I).
    + assert (E : acc ++ String c s = (acc ++ String c "") ++ s) by (rewrite app_assoc_s; reflexivity). rewrite E. apply IH.
      apply every_app_s. split; auto. split; [|exact I]. rewrite <- is_ws_spec. congruence.
Qed.
Lemma fields_words s : words s (fields s).
Proof. exact (fields_from_words s "" I). Qed.

Lemma fields_from_nonws w : every (fun c => ~ ws c) w -> forall acc s, fields_from acc (w ++ s) = fields_from (acc ++ w) s.
Proof.
  induction w as [|c w IH]; intros H acc s; [now rewrite app_nil_s|]. destruct H as [H1 H2]. cbn [append fields_from].
  rewrite is_ws_false by auto. rewrite IH by auto. now rewrite app_assoc_s.
Qed.
Lemma fields_from_ws b : every ws b -> forall s, fields_from "" (b ++ s) = fields_from "" s.
Proof.
  induction b as [|c b IH]; intros H s; auto. destruct H as [H1 H2]. cbn [append fields_from].
  apply is_ws_spec in H1. rewrite H1. now apply IH.
Qed.
Lemma words_fields s l : words s l -> fields s = l.
Proof.
  unfold fields. induction 1 as [b H|b w Hb Hw Hn|b w c s l Hb Hw Hn Hc _ IH].
  - rewrite <- (app_nil_s b), fields_from_ws by auto. reflexivity.
  - rewrite fields_from_ws by auto. rewrite <- (app_nil_s w) at 1. rewrite fields_from_nonws by auto. cbn [append fields_from].
    destruct w; [congruence|reflexivity].
  - rewrite fields_from_ws, fields_from_nonws by auto. cbn [append fields_from]. apply is_ws_spec in Hc. rewrite Hc, IH.
    destruct w; [congruence|reflexivity].
Qed.
Lemma words_nonws s l : words s l -> Forall (every (fun c => ~ ws c)) l.
Proof. induction 1; auto. Qed.

(** ** Names *)
Lemma trim_left_spec p s : exists a, every (fun c => p c = true) a /\ s = a ++ trim_left p s.
Proof.
  induction s as [|c s [a [H E]]]; [exists ""; split; [exact I|reflexivity]|]. cbn [trim_left]. destruct (p c) eqn:P.
  - exists (String c a). split; [split; auto|]. cbn. now rewrite <- E.
  - exists "". split; [exact I|reflexivity].
Qed.
Lemma trim_right_spec p s : exists b, every (fun c => p c = true) b /\ s = trim_right p s ++ b.
Proof.
  induction s as [|c s [b [H E]]]; [exists ""; split; [exact I|reflexivity]|]. cbn [trim_right].
  destruct (trim_right p s) as [|d t] eqn:T.
  - cbn in E. subst b. destruct (p c) eqn:P; [exists (String c s); split; [split; auto|reflexivity]|exists s; split; auto].
  - exists b. split; auto. cbn. cbn in E. now rewrite <- E.
Qed.
Lemma trim_colons_named w m : trim_colons w = m -> named m w.
Proof.
  intros <-. unfold trim_colons. destruct (trim_left_spec (Ascii.eqb ":") w) as [a [Ha Ea]].
  destruct (trim_right_spec (Ascii.eqb ":") (trim_left (Ascii.eqb ":") w)) as [b [Hb Eb]].
  exists a, b. rewrite <- Eb, <- Ea.
  assert (X : forall s, every (fun c => Ascii.eqb ":" c = true) s -> every (fun c => c = ":"%char) s).
  { induction s as [|c s IH]; auto. intros [H1 H2]. split; auto. symmetry. now apply Ascii.eqb_eq. }
  auto.
Qed.
Lemma trim_left_all p a s : every (fun c => p c = true) a -> trim_left p (a ++ s) = trim_left p s.
Proof. induction a as [|c a IH]; auto. intros [H1 H2]. cbn. rewrite H1. auto. Qed.
Lemma trim_right_all p s b : every (fun c => p c = true) b -> trim_right p (s ++ b) = trim_right p s.
Proof.
  intros H. induction s as [|c s IH]; cbn [append trim_right].
  - induction b as [|c b IH]; auto. destruct H as [H1 H2]. cbn [trim_right]. rewrite IH by auto. now rewrite H1.
  - now rewrite IH.
Qed.
Lemma named_trim w m : named m w -> m <> "" -> trim_left (Ascii.eqb ":") m = m -> trim_right (Ascii.eqb ":") m = m -> trim_colons w = m.
Proof.
  intros [a [b [Ha [Hb ->]]]] NE L R.
  assert (X : forall s, every (fun c => c = ":"%char) s -> every (fun c => Ascii.eqb ":" c = true) s).
  { induction s as [|c s IH]; auto. intros [H1 H2]. split; auto. now rewrite H1. }
  unfold trim_colons. rewrite trim_left_all by auto.
  assert (Y : trim_left (Ascii.eqb ":") (m ++ b) = m ++ b).
  { destruct m as [|c m]; [congruence|]. cbn [append trim_left] in *. destruct (Ascii.eqb ":" c); auto.
    exfalso. apply (f_equal String.length) in L. pose proof (trim_left_spec (Ascii.eqb ":") m) as [x [_ E]].
    apply (f_equal String.length) in E. rewrite string_app_length in E. cbn in L. lia. }
  rewrite Y. rewrite trim_right_all by auto. exact R.
Qed.

(** ** Saved columns *)
Lemma trim_comma_saved w : saved w (trim_comma w).
Proof.
  induction w as [|c w IH]; [right; split; [reflexivity|intros x; destruct x; discriminate]|]. destruct w as [|d w].
  - cbn. destruct (Ascii.eqb_spec c ","); [left; now subst|right]. split; auto. intros x E. destruct x as [|y x]; [cbn in E; congruence|].
    destruct x; discriminate.
  - change (trim_comma (String c (String d w))) with (String c (trim_comma (String d w))). destruct IH as [E|[E H]].
    + left. cbn [append]. now rewrite <- E.
    + right. split; [now rewrite <- E|]. intros x X. destruct x as [|y x].
      * cbn [append] in X. apply (f_equal (fun s => match s with String _ r => r | "" => "" end)) in X. cbv beta iota in X. rewrite <- E in X. discriminate.
      * cbn [append] in X. apply (f_equal (fun s => match s with String _ r => r | "" => "" end)) in X. cbv beta iota in X. eapply H; eauto.
Qed.
Lemma saved_nonws w c : saved w c -> every (fun x => ~ ws x) w -> trim_space c = c.
Proof.
  intros H W. assert (K : every (fun x => ~ ws x) c) by (destruct H as [->|[-> _]]; [apply every_app_s in W; tauto|auto]).
  apply trim_space_id. split; [destruct c; cbn in *; tauto|]. intros a d ->. apply every_app_s in K. cbn in K. tauto.
Qed.

Section mods.
  Context (T : tenv) (name : string).

  Lemma column_name f i w r : every (fun x => ~ ws x) w -> column T name f i w = Some r -> saved w (fst r).
  Proof.
    intros W. unfold column. set (c := trim_space (trim_comma w)).
    assert (S : saved w c) by (unfold c; rewrite (saved_nonws w) by (auto; apply trim_comma_saved); apply trim_comma_saved).
    destruct (String.eqb_spec c noop_column) as [E|E].
    - destruct (sget noop_column (f_keys f)); intros [= <-]; cbn [fst]; now rewrite <- E.
    - destruct (sget c (f_keys f)); [discriminate|]. destruct (te_make _ _ _ _); [|discriminate]. now intros [= <-].
  Qed.
  Lemma columns_names cols : forall f i r, Forall (every (fun x => ~ ws x)) cols -> columns T name f i cols = Some r -> Forall2 saved cols (fst r).
  Proof.
    induction cols as [|w cols IH]; intros f i r H; cbn [columns]; [intros [= <-]; constructor|]. inversion H; subst.
    destruct (column T name f i w) as [r1|] eqn:C; [|discriminate]. destruct (columns T name (snd r1) (S i) cols) as [rs|] eqn:Cs; [|discriminate].
    intros [= <-]. cbn [fst]. constructor; [eapply column_name; eauto|eapply IH; eauto].
  Qed.

  Lemma parse_uint64_decimal a n : parse_uint64 a = Some n -> decimal a n /\ (n < 2 ^ 64)%N.
  Proof.
    unfold parse_uint64. destruct a as [|c a]; [discriminate|]. destruct (digits_value 0 (String c a)) as [v|] eqn:D; [|discriminate].
    destruct (v <? 2 ^ 64)%N eqn:L; [|discriminate]. intros [= <-]. apply N.ltb_lt in L. split; auto.
    cbn [digits_value] in D. destruct (is_digit c) eqn:I; [|discriminate]. apply is_digit_digit in I.
    change (String c a) with (String c "" ++ a). eapply digits_value_decimal; [exact D|].
    match goal with |- decimal _ ?x => replace x with (N.of_nat (nat_of_ascii c - 48)) end; [now constructor|].
    unfold digit in I. lia.
  Qed.

  (** One modifier: its effect, and what it changes. *)
  Definition after (e : effect) (s s' : pstmt) : Prop :=
    p_prepare s' = (p_prepare s || prepares e)%bool /\
    p_idle s' = latest (p_idle s) (idles e) /\
    p_limits s' = (p_limits s ++ limits e)%list /\
    p_outputs s' = (p_outputs s ++ outs e)%list /\
    p_insert s' = latest (p_insert s) (inserts e) /\
    p_trx s' = p_trx s /\ p_query s' = p_query s /\ p_multi s' = p_multi s /\ p_inputs s' = p_inputs s /\ p_calls s' = p_calls s /\
    p_resultset s' = p_resultset s /\ p_begin s' = p_begin s /\ p_commit s' = p_commit s /\ p_write s' = p_write s /\ p_ddl s' = p_ddl s.

  Definition no_copies (md : string) : Prop := forall w l, words md (w :: l) -> ~ named "copies" w.

  Lemma modifier_means md s f r : no_copies md -> modifier T name md s f = Some r ->
    exists e s' f', r = MGo s' f' /\ means (te_env T) md e /\ after e s s'.
  Proof.
    intros NC H. unfold modifier in H. pose proof (fields_words md) as W. pose proof (words_nonws _ _ W) as NW.
    destruct (fields md) as [|w args]; [discriminate|].
    destruct (String.eqb (trim_colons w) "prepare" || String.eqb (trim_colons w) "prepared")%bool eqn:E1.
    { injection H as <-. do 3 eexists. split; [reflexivity|]. apply orb_true_iff in E1. rewrite !String.eqb_eq in E1. split.
      - econstructor; [exact W|]. destruct E1 as [E1|E1]; apply trim_colons_named in E1; auto.
      - unfold after. cbn. rewrite orb_true_r, !app_nil_r. tauto. }
    clear E1. destruct (String.eqb_spec (trim_colons w) "idle") as [E|_].
    { apply trim_colons_named in E. destruct args as [|a args]; [discriminate|]. destruct (e_parse_duration (te_env T) a) eqn:D; [|discriminate].
      injection H as <-. do 3 eexists. split; [reflexivity|]. split; [eapply means_idle; eauto|].
      unfold after. cbn. rewrite orb_false_r, !app_nil_r. tauto. }
    destruct (String.eqb_spec (trim_colons w) "rows") as [E|_].
    { apply trim_colons_named in E. destruct args as [|a args]; [discriminate|]. destruct (parse_uint64 a) as [max|] eqn:D; [|discriminate].
      apply parse_uint64_decimal in D as [D1 D2].
      assert (A : forall l, after (ELimit l) s (add_limit s l)) by (intros l; unfold after; cbn; rewrite orb_false_r, !app_nil_r; tauto).
      destruct args as [|b [|b2 args]].
      - injection H as <-. do 3 eexists. split; [reflexivity|]. split; [eapply means_rows; eauto|apply A].
      - destruct (parse_uint64 b) as [off|] eqn:B; [|discriminate]. apply parse_uint64_decimal in B as [B1 B2].
        injection H as <-. do 3 eexists. split; [reflexivity|]. split; [eapply means_offset; eauto|apply A].
      - injection H as <-. do 3 eexists. split; [reflexivity|]. split; [eapply means_rows_more; eauto|apply A]. }
    destruct (String.eqb (trim_colons w) "table-size" || String.eqb (trim_colons w) "database-size")%bool eqn:E1.
    { destruct args as [|a [|b [|]]]; try discriminate. destruct (e_parse_bytes (te_env T) b) as [n|] eqn:B; [|discriminate]. injection H as <-.
      assert (A : forall l, after (ELimit l) s (add_limit s l)) by (intros l; unfold after; cbn; rewrite orb_false_r, !app_nil_r; tauto).
      do 3 eexists. split; [reflexivity|]. split; [|apply A].
      destruct (String.eqb_spec (trim_colons w) "table-size") as [E|_].
      - apply trim_colons_named in E. eapply means_table; eauto.
      - cbn [orb] in E1. apply String.eqb_eq, trim_colons_named in E1. eapply means_database; eauto. }
    clear E1. destruct (String.eqb_spec (trim_colons w) "save-insert-id") as [E|_].
    { apply trim_colons_named in E. destruct (p_resultset s); [discriminate|]. destruct args as [|a args]; [discriminate|].
      destruct (column T name f 0 a) as [r1|] eqn:C; [|discriminate]. injection H as <-.
      apply column_name in C; [|inversion NW as [|? ? ? X]; inversion X; auto]. do 3 eexists. split; [reflexivity|].
      split; [eapply means_insert; eauto|]. unfold after. cbn. rewrite orb_false_r, !app_nil_r. tauto. }
    destruct (String.eqb_spec (trim_colons w) "save-columns") as [E|_].
    { apply trim_colons_named in E. destruct (columns T name f 0 args) as [r1|] eqn:C; [|discriminate]. injection H as <-.
      apply columns_names in C; [|inversion NW; auto]. do 3 eexists. split; [reflexivity|].
      split; [eapply means_columns; eauto|]. unfold after. cbn. rewrite orb_false_r, !app_nil_r. tauto. }
    destruct (String.eqb_spec (trim_colons w) "copies") as [E|_]; [|discriminate].
    apply trim_colons_named in E. exfalso. eapply NC; eauto.
  Qed.

  Lemma latest_app {A} (d : A) a b : latest (latest d a) b = latest d (a ++ b).
  Proof.
    unfold latest. destruct b as [|x b]; [now rewrite app_nil_r|].
    assert (H : exists y l, x :: b = (l ++ [y])%list) by (destruct (exists_last (l := x :: b)) as [l [y H]]; [discriminate|eauto]).
    destruct H as [y [l ->]]. rewrite app_assoc, !last_last. reflexivity.
  Qed.

  Definition summed (es : list effect) (s s' : pstmt) : Prop :=
    p_prepare s' = (p_prepare s || existsb prepares es)%bool /\
    p_idle s' = latest (p_idle s) (flat_map idles es) /\
    p_limits s' = (p_limits s ++ flat_map limits es)%list /\
    p_outputs s' = (p_outputs s ++ flat_map outs es)%list /\
    p_insert s' = latest (p_insert s) (flat_map inserts es) /\
    p_trx s' = p_trx s /\ p_query s' = p_query s /\ p_multi s' = p_multi s /\ p_inputs s' = p_inputs s /\ p_calls s' = p_calls s /\
    p_resultset s' = p_resultset s /\ p_begin s' = p_begin s /\ p_commit s' = p_commit s /\ p_write s' = p_write s /\ p_ddl s' = p_ddl s.

  Lemma modifiers_mean mods : forall s f r, Forall no_copies mods -> modifiers T name mods s f = Some r ->
    exists es s' f', r = MGo s' f' /\ Forall2 (means (te_env T)) mods es /\ summed es s s'.
  Proof.
    induction mods as [|m mods IH]; intros s f r NC H; cbn [modifiers] in H.
    - injection H as <-. exists [], s, f. split; [reflexivity|]. split; [constructor|].
      unfold summed. cbn. rewrite orb_false_r, !app_nil_r. tauto.
    - inversion NC; subst. destruct (modifier T name m s f) as [r1|] eqn:M; [|discriminate].
      apply modifier_means in M as [e [s1 [f1 [-> [Me A]]]]]; auto. apply IH in H as [es [s' [f' [-> [Ms S]]]]]; auto.
      exists (e :: es), s', f'. split; [reflexivity|]. split; [now constructor|].
      unfold after in A. unfold summed in *. cbn [existsb flat_map].
      destruct A as [A1 [A2 [A3 [A4 [A5 [A6 [A7 [A8 [A9 [A10 [A11 [A12 [A13 [A14 A15]]]]]]]]]]]]]].
      destruct S as [S1 [S2 [S3 [S4 [S5 [S6 [S7 [S8 [S9 [S10 [S11 [S12 [S13 [S14 S15]]]]]]]]]]]]]].
      rewrite S1, S2, S3, S4, S5, A1, A2, A3, A4, A5, !latest_app, <- !app_assoc, orb_assoc. repeat split; congruence.
  Qed.

  Lemma decimal_parse a n : decimal a n -> (n < 2 ^ 64)%N -> parse_uint64 a = Some n.
  Proof.
    intros D L. unfold parse_uint64. rewrite (decimal_value _ _ D). apply N.ltb_lt in L. rewrite L.
    destruct a; [inversion D|reflexivity]. destruct s; discriminate.
  Qed.

  Definition saves (e : effect) : bool := match e with EInsert _ | EColumns _ => true | _ => false end.
  Lemma modifier_accepts md e s f : means (te_env T) md e -> saves e = false ->
    exists s', modifier T name md s f = Some (MGo s' f).
  Proof.
    intros M SV. unfold modifier.
    destruct M as [w l W N|w a l d W N D|w a n W N D L|w a n b k W N D1 D2 L1 L2|w a n b1 b2 l W N D L|w a b n W N D|w a b n W N D|w a l c W N S|w l cs W N S];
      try discriminate; rewrite (words_fields _ _ W).
    - destruct N as [N|N]; (rewrite (named_trim _ _ N) by (reflexivity || discriminate)); eexists; reflexivity.
    - rewrite (named_trim _ _ N) by (reflexivity || discriminate). cbn [String.eqb Ascii.eqb Bool.eqb orb]. rewrite D. eexists; reflexivity.
    - rewrite (named_trim _ _ N) by (reflexivity || discriminate). cbn [String.eqb Ascii.eqb Bool.eqb orb]. rewrite (decimal_parse _ _ D L). eexists; reflexivity.
    - rewrite (named_trim _ _ N) by (reflexivity || discriminate). cbn [String.eqb Ascii.eqb Bool.eqb orb]. rewrite (decimal_parse _ _ D1 L1), (decimal_parse _ _ D2 L2). eexists; reflexivity.
    - rewrite (named_trim _ _ N) by (reflexivity || discriminate). cbn [String.eqb Ascii.eqb Bool.eqb orb]. rewrite (decimal_parse _ _ D L). eexists; reflexivity.
    - rewrite (named_trim _ _ N) by (reflexivity || discriminate). cbn [String.eqb Ascii.eqb Bool.eqb orb]. rewrite D. eexists; reflexivity.
    - rewrite (named_trim _ _ N) by (reflexivity || discriminate). cbn [String.eqb Ascii.eqb Bool.eqb orb]. rewrite D. eexists; reflexivity.
  Qed.
  Lemma modifiers_accept mods es : Forall2 (means (te_env T)) mods es -> Forall (fun e => saves e = false) es ->
    forall s f, exists s', modifiers T name mods s f = Some (MGo s' f).
  Proof.
    induction 1 as [|m e mods es M _ IH]; intros SV s f; [now exists s|]. inversion SV; subst.
    destruct (modifier_accepts m e s f M) as [s1 E]; auto. cbn [modifiers]. rewrite E. now apply IH.
  Qed.

  Lemma statement_mods q mods f ss f' : Forall no_copies mods -> statements T name q mods f = Some (ss, f') ->
    exists es s, ss = [s] /\ Forall2 (means (te_env T)) mods es /\
      p_prepare s = existsb prepares es /\ p_idle s = latest 0%Z (flat_map idles es) /\
      p_limits s = flat_map limits es /\ p_outputs s = flat_map outs es /\ p_insert s = latest "" (flat_map inserts es) /\
      p_trx s = name /\ p_multi s = 0%N.
  Proof.
    intros NC H. unfold statements in H. destruct (modifiers T name mods _ _) as [r|] eqn:M; [|discriminate].
    apply modifiers_mean in M as [es [s' [f1 [-> [Ms S]]]]]; auto.
    destruct (finish T name 0 (trim_space q) s' f1) as [x|] eqn:X; [|discriminate]. injection H as <- <-.
    exists es, (fst x). split; [reflexivity|]. split; [exact Ms|]. unfold summed in S.
    destruct S as [S1 [S2 [S3 [S4 [S5 [S6 [S7 [S8 [S9 [S10 _]]]]]]]]]]. cbn [new_stmt p_prepare p_idle p_limits p_outputs p_insert p_trx p_multi orb app] in *.
    unfold finish in X. destruct (expand_csv T (replace_copy (trim_space q) 0) f1) as [r|]; [|discriminate].
    destruct (find_keys (fst r)) as [|k ks].
    - injection X as <-. cbn [set_query fst p_prepare p_idle p_limits p_outputs p_insert p_trx p_multi]. auto 10.
    - destruct (inputs T name (p_prepare s') (k :: ks) [] (snd r) []) as [[[ins f2] fmts]|]; [|discriminate].
      injection X as <-. cbn [set_query fst p_prepare p_idle p_limits p_outputs p_insert p_trx p_multi]. auto 10.
  Qed.

  (** A statement with modifiers that save nothing is accepted if and as it is without. *)
  Lemma statement_accepts q mods es f : Forall2 (means (te_env T)) mods es -> Forall (fun e => saves e = false) es ->
    existsb prepares es = false ->
    (statements T name q mods f = None <-> statements T name q [] f = None).
  Proof.
    intros H SV NP. unfold statements. destruct (modifiers_accept mods es H SV (new_stmt name (trim_space q)) (see_ddl (new_stmt name (trim_space q)) f)) as [s' E].
    rewrite E. cbn [modifiers].
    assert (P : p_prepare s' = false).
    { assert (NC : Forall no_copies mods).
      { clear -H SV. induction H as [|m e mods es M _ IH]; [constructor|]. inversion SV; subst. constructor; [|auto].
        intros w l W N. apply words_fields in W. 
        destruct M as [w1 l1 W1 N1|w1 a l1 d W1 N1 D|w1 a n W1 N1 D L|w1 a n b k W1 N1 D1 D2 L1 L2|w1 a n b1 b2 l1 W1 N1 D L|w1 a b n W1 N1 D|w1 a b n W1 N1 D|w1 a l1 c W1 N1 S|w1 l1 cs W1 N1 S];
        apply words_fields in W1; rewrite W in W1; injection W1 as -> _; apply named_trim in N; try reflexivity; try discriminate;
        try (destruct N1 as [N1|N1]); apply named_trim in N1; try reflexivity; try discriminate; congruence. }
      apply modifiers_mean in E as [es' [s1 [f1 [E1 [Ms S]]]]]; auto. injection E1 as <- <-.
      destruct S as [S1 _]. rewrite S1. cbn [new_stmt p_prepare orb].
      clear -H Ms NP. revert es' Ms. induction H as [|m e mods es M _ IH]; intros es' Ms; inversion Ms; subst; [reflexivity|].
      cbn [existsb] in *. apply orb_false_iff in NP as [NP1 NP2]. rewrite IH by auto.
      match goal with X : means _ m ?y |- _ => destruct y eqn:Y; try reflexivity end. subst. exfalso.
      match goal with X : means _ m EPrepare |- _ => inversion X as [w l W N| | | | | | | | ] end.
      apply words_fields in W.
      destruct M as [w1 l1 W1 N1|w1 a l1 d W1 N1 D|w1 a n W1 N1 D L|w1 a n b k W1 N1 D1 D2 L1 L2|w1 a n b1 b2 l1 W1 N1 D L|w1 a b n W1 N1 D|w1 a b n W1 N1 D|w1 a l1 c W1 N1 S|w1 l1 cs W1 N1 S]; try discriminate;
        apply words_fields in W1; rewrite W in W1; injection W1 as -> _; destruct N as [N|N]; apply named_trim in N; try reflexivity; try discriminate;
        apply named_trim in N1; try reflexivity; try discriminate; congruence. }
    assert (F : forall s f1 f2, p_prepare s = false -> f1 = f2 -> finish T name 0 (trim_space q) s f1 = None <-> finish T name 0 (trim_space q) (new_stmt name (trim_space q)) f2 = None).
    { intros s f1 f2 Ps ->. unfold finish. destruct (expand_csv T _ f2) as [r|]; [|tauto]. destruct (find_keys (fst r)); [split; discriminate|].
      rewrite Ps. cbn [new_stmt p_prepare]. destruct (inputs T name false _ [] (snd r) []) as [[[ins f3] fmts]|]; [split; discriminate|tauto]. }
    specialize (F s' (see_ddl (new_stmt name (trim_space q)) f) _ P eq_refl).
    destruct (finish T name 0 (trim_space q) s' _); destruct (finish T name 0 (trim_space q) (new_stmt name (trim_space q)) _);
      split; try discriminate; auto; intros _; destruct F as [F1 F2]; try (now specialize (F2 eq_refl)); now specialize (F1 eq_refl).
  Qed.
End mods.

Lemma decimal_unique a n m : decimal a n -> decimal a m -> n = m.
Proof. intros H1 H2. apply decimal_value in H1, H2. congruence. Qed.
Lemma saved_unique w c d : saved w c -> saved w d -> c = d.
Proof.
  assert (X : forall a b, a ++ "," = b ++ "," -> a = b).
  { induction a as [|x a IH]; destruct b as [|y b]; cbn [append]; auto.
    - intros H. exfalso. injection H as _ H. destruct b; discriminate.
    - intros H. exfalso. injection H as _ H. destruct a; discriminate.
    - intros H. injection H as -> H. now rewrite (IH b H). }
  intros [H1|[H1 N1]] [H2|[H2 N2]]; subst; auto.
  - exfalso. eapply N2; eauto.
  - exfalso. eapply N1; eauto.
Qed.
Lemma means_unique E m e e' : means E m e -> means E m e' -> e = e'.
Proof.
  intros M M'.
  destruct M as [w1 l1 W1 N1|w1 a l1 d W1 N1 D|w1 a n W1 N1 D L|w1 a n b k W1 N1 D1 D2 L1 L2|w1 a n b1 b2 l1 W1 N1 D L|w1 a b n W1 N1 D|w1 a b n W1 N1 D|w1 a l1 c W1 N1 S|w1 l1 cs W1 N1 S];
  destruct M' as [w1' l1' W1' N1'|w1' a' l1' d' W1' N1' D'|w1' a' n' W1' N1' D' L'|w1' a' n' b' k' W1' N1' D1' D2' L1' L2'|w1' a' n' b1' b2' l1' W1' N1' D' L'|w1' a' b' n' W1' N1' D'|w1' a' b' n' W1' N1' D'|w1' a' l1' c' W1' N1' S'|w1' l1' cs' W1' N1' S'];
  apply words_fields in W1; apply words_fields in W1'; rewrite W1 in W1';
  try (destruct N1 as [N1|N1]); try (destruct N1' as [N1'|N1']); apply named_trim in N1; try reflexivity; try discriminate;
  apply named_trim in N1'; try reflexivity; try discriminate; try congruence; injection W1'; intros; subst; try congruence;
  try (rewrite (decimal_unique _ _ _ D D')); try (rewrite (decimal_unique _ _ _ D1 D1'), (decimal_unique _ _ _ D2 D2')); auto.
  - f_equal. eapply saved_unique; eauto.
  - f_equal. clear -S S'. revert cs' S'. induction S as [|w c l cs H _ IH]; intros cs' S'; inversion S'; subst; auto.
    f_equal; [eapply saved_unique; eauto|auto].
Qed.
