(** Proofs about "-- copies: N". *)
From Verif Require Import Prelude ConfigModel ConfigSpec ConfigVarsProofs ConfigProofs TrxModel TrxSpec TrxKeyProofs
  TrxRowProofs TrxProofs TrxStmtProofs TrxCsvProofs.
#[local] Open Scope list_scope.
#[local] Open Scope string_scope.

(** ** Words of a modifier *)
Lemma fields_from_sub s : forall acc w ws, fields_from acc s = w :: ws -> occurs w (acc ++ s).
Proof.
  induction s as [|c s IH]; intros acc w l H; cbn [fields_from] in H.
  - destruct acc; [discriminate|]. injection H as <- _. rewrite sapp_nil. exists "", "". now rewrite sapp_nil.
  - destruct (is_ws c).
    + destruct acc as [|a acc].
      * apply IH in H. now apply occurs_cons.
      * injection H as <- _. exists "", (String c s). reflexivity.
    + apply IH in H. now rewrite sapp_assoc in H.
Qed.
Lemma fields_sub m w l : fields m = w :: l -> occurs w m.
Proof. apply (fields_from_sub m ""). Qed.
Lemma occurs_trans a b c : occurs a b -> occurs b c -> occurs a c.
Proof. intros A B. eapply occurs_le; eauto. Qed.
Lemma occurs_refl a : occurs a a. Proof. exists "", "". now rewrite sapp_nil. Qed.
Lemma trim_left_sub p s : occurs (trim_left p s) s.
Proof. induction s as [|c s IH]; cbn; [apply occurs_refl|]. destruct (p c); [now apply occurs_cons|apply occurs_refl]. Qed.
Lemma trim_right_pre p s : exists t, s = trim_right p s ++ t.
Proof.
  induction s as [|c s [t IH]]; [now exists ""|]. cbn [trim_right]. destruct (trim_right p s) as [|d u] eqn:E.
  - destruct (p c); [now exists (String c s)|]. exists s. reflexivity.
  - exists t. cbn. cbn in IH. now rewrite IH.
Qed.
Lemma trim_right_sub p s : occurs (trim_right p s) s.
Proof. destruct (trim_right_pre p s) as [t H]. exists "", t. exact H. Qed.
Lemma trim_colons_sub s : occurs (trim_colons s) s.
Proof. eapply occurs_trans; [apply trim_right_sub|apply trim_left_sub]. Qed.

Lemma modifier_word m w l x : fields m = w :: l -> trim_colons w = x -> occurs x m.
Proof. intros H <-. eapply occurs_trans; [apply trim_colons_sub|]. eapply fields_sub; eauto. Qed.

Lemma fields_from_word ds : every (fun c => ~ ws c) ds -> forall acc, acc ++ ds <> "" -> fields_from acc ds = [acc ++ ds].
Proof.
  induction ds as [|c ds IH]; intros H acc Ha; cbn [fields_from].
  - rewrite sapp_nil in *. destruct acc; [congruence|reflexivity].
  - destruct H as [H1 H2]. rewrite is_ws_false by auto. rewrite IH; auto; rewrite sapp_assoc; auto.
Qed.
Lemma digit_not_ws c : digit c -> ~ ws c.
Proof. unfold digit, ws. cbn [In]. lia. Qed.

Lemma atoi_decimal ds n : decimal ds n -> (n < 2 ^ 63)%N -> atoi ds = Some (Z.of_N n).
Proof.
  intros D Hn. pose proof (decimal_digits _ _ D) as DD. pose proof (decimal_value _ _ D) as DV. unfold atoi.
  destruct ds as [|c ds]; [inversion D as [|? ? ? ? ? E]; destruct s; discriminate|].
  destruct DD as [Hc _]. assert (X : (Ascii.eqb c "-" || Ascii.eqb c "+")%bool = false).
  { destruct (Ascii.eqb_spec c "-"); [subst; apply is_digit_digit in Hc; discriminate|].
    destruct (Ascii.eqb_spec c "+"); [subst; apply is_digit_digit in Hc; discriminate|reflexivity]. }
  rewrite X. rewrite DV. replace (has_prefix "-" (String c ds)) with false.
  - apply N.ltb_lt in Hn. now rewrite Hn.
  - symmetry. unfold has_prefix. rewrite strip_prefix_none; auto. intros r E. cbn in E. injection E as -> _.
    discriminate X.
Qed.

Section file.
  Context (T : tenv) (name : string).

  Lemma copies_modifier ds n s f : decimal ds n -> (n < 2 ^ 63)%N -> n <> 1%N ->
    modifier T name ("copies: " ++ ds) s f = Some (MCopies n f).
  Proof.
    intros D Hn H1. pose proof (decimal_digits _ _ D) as DD.
    assert (F : fields ("copies: " ++ ds) = ["copies:"; ds]).
    { unfold fields. cbn [append fields_from]. cbn. f_equal. rewrite fields_from_word; [reflexivity| |].
      - eapply every_impl; [|exact DD]. apply digit_not_ws.
      - cbn. intros ->. inversion D as [|? ? ? ? ? E]; destruct s0; discriminate. }
    unfold modifier. rewrite F. cbn. rewrite (atoi_decimal ds n) by auto.
    destruct (Z.of_N n <? 0)%Z eqn:L; [apply Z.ltb_lt in L; lia|]. destruct (Z.of_N n =? 1)%Z eqn:E; [apply Z.eqb_eq in E; lia|].
    now rewrite N2Z.id.
  Qed.
  Lemma copies_one s f : modifier T name "copies: 1" s f = Some (MGo s f).
  Proof. reflexivity. Qed.

  Lemma modifier_frame m s f r : ~ occurs "copies" m -> modifier T name m s f = Some r ->
    exists s1 f1, r = MGo s1 f1 /\ (~ occurs "save-" m -> f1 = f).
  Proof.
    intros NC. unfold modifier. destruct (fields m) as [|w args] eqn:F; [discriminate|]. cbv zeta.
    assert (W : forall x, trim_colons w = x -> occurs x m) by (intros x Hx; eapply modifier_word; eauto).
    destruct (_ || _)%bool; [intros [= <-]; eauto|].
    destruct (String.eqb (trim_colons w) "idle").
    { destruct args as [|a args]; [discriminate|]. destruct (e_parse_duration (te_env T) a); [|discriminate]. intros [= <-]; eauto. }
    destruct (String.eqb (trim_colons w) "rows").
    { destruct args as [|a args]; [discriminate|]. destruct (parse_uint64 a); [|discriminate].
      destruct (match args with [b] => parse_uint64 b | _ => Some 0%N end); [|discriminate]. intros [= <-]; eauto. }
    destruct (_ || _)%bool.
    { destruct args as [|a [|b [|? ?]]]; try discriminate. destruct (e_parse_bytes (te_env T) b); [|discriminate].
      intros [= <-]; eauto. }
    destruct (String.eqb_spec (trim_colons w) "save-insert-id") as [E|_].
    { destruct (p_resultset s); [discriminate|]. destruct args as [|a args]; [discriminate|].
      destruct (column T name f 0 a) as [[o f1]|]; [|discriminate]. intros [= <-]. eexists _, _. split; [reflexivity|].
      intros NS. exfalso. apply NS. eapply occurs_trans; [|apply W; exact E]. now exists "", "insert-id". }
    destruct (String.eqb_spec (trim_colons w) "save-columns") as [E|_].
    { destruct (columns T name f 0 args) as [[os f1]|]; [|discriminate]. intros [= <-]. eexists _, _. split; [reflexivity|].
      intros NS. exfalso. apply NS. eapply occurs_trans; [|apply W; exact E]. now exists "", "columns". }
    destruct (String.eqb_spec (trim_colons w) "copies") as [E|_]; [|discriminate].
    exfalso. apply NC. now apply W.
  Qed.

  Lemma modifiers_app a b s f : modifiers T name (a ++ b) s f =
    match modifiers T name a s f with
    | Some (MGo s1 f1) => modifiers T name b s1 f1
    | x => x
    end.
  Proof.
    revert s f; induction a as [|m a IH]; intros s f; cbn [app modifiers]; auto.
    destruct (modifier T name m s f) as [[s1 f1|n f1]|]; cbn; auto.
  Qed.
  Lemma modifiers_frame a s f : Forall (fun m => ~ occurs "copies" m) a ->
    match modifiers T name a s f with
    | Some (MGo s1 f1) => Forall (fun m => ~ occurs "save-" m) a -> f1 = f
    | Some (MCopies _ _) => False
    | None => True
    end.
  Proof.
    intros H. revert s f; induction H as [|m a Hm H IH]; intros s f; cbn [modifiers]; auto.
    destruct (modifier T name m s f) as [r|] eqn:E; [|exact I].
    apply modifier_frame in E as (s1 & f1 & -> & E); auto. cbn. specialize (IH s1 f1).
    destruct (modifiers T name a s1 f1) as [[s2 f2|]|]; auto. intros F. inversion F; subst. rewrite IH; auto.
  Qed.

  Lemma see_ddl_twice s f : see_ddl s (see_ddl s f) = see_ddl s f.
  Proof. unfold see_ddl. cbn. f_equal. now rewrite <- orb_assoc, orb_diag. Qed.

  Lemma copies_seen i n q mods f : copies T name i (S n) q mods (see_ddl (new_stmt name q) f) = copies T name i (S n) q mods f.
  Proof. cbn [copies]. unfold copy_stmt. now rewrite see_ddl_twice. Qed.

  (** ** The text of a copy *)
  Lemma between_cons sep p ps : ps <> [] -> between sep (p :: ps) = p ++ sep ++ between sep ps.
  Proof. destruct ps; [congruence|reflexivity]. Qed.

  Definition part_ok (p : string) : Prop := ~ occurs "/*!copy-number*" p.
  Lemma part_tail c p : part_ok (String c p) -> part_ok p.
  Proof. intros H X. apply H. now apply occurs_cons. Qed.

  Lemma copy_prefix y r z : part_ok y -> y <> "" -> y ++ copy_number ++ z <> copy_number ++ r.
  Proof.
    intros H Hy E. destruct (app_split _ _ _ _ E) as [[t Ht]|[t Ht]].
    - apply H. rewrite Ht. exists "", ("/" ++ t). reflexivity.
    - rewrite Ht in E at 2. rewrite sapp_assoc in E. apply sapp_inj_l in E.
      destruct t as [|c t].
      + rewrite sapp_nil in Ht. apply H. rewrite <- Ht. exists "", "/". reflexivity.
      + cbn in E. injection E as <- _.
        destruct y as [|a y]; [congruence|]. cbn in Ht. injection Ht as <- Ht.
        assert (G : forall u v, "*!copy-number*/" = u ++ String "/" v -> u = "*!copy-number*").
        { clear. intros u v. do 15 (destruct u as [|? u]; [cbn; first [discriminate|reflexivity]|cbn; let H := fresh in intros H; injection H as <- H; revert H]).
          destruct u; discriminate. }
        apply G in Ht. subst y. apply H. apply occurs_refl.
  Qed.

  Lemma replace_skip n y rest fuel : part_ok y -> (rest = "" \/ exists z, rest = copy_number ++ z) ->
    (String.length y <= fuel)%nat ->
    replace [(copy_number, format_uint n)] fuel (y ++ rest) =
    y ++ replace [(copy_number, format_uint n)] (fuel - String.length y) rest.
  Proof.
    revert fuel; induction y as [|c y IH]; intros fuel H R Hf.
    - cbn. now rewrite Nat.sub_0_r.
    - cbn in Hf. destruct fuel; [lia|]. cbn [append replace]. rewrite first_old_none.
      + rewrite IH; auto; [eapply part_tail; eauto|lia].
      + constructor; [|constructor]. cbn [fst]. apply strip_prefix_none. intros r E.
        change (String c (y ++ rest)) with (String c y ++ rest) in E.
        destruct R as [->|[z ->]].
        * rewrite sapp_nil in E. apply H. rewrite E. exists "", ("/" ++ r). reflexivity.
        * now apply copy_prefix in E.
  Qed.
  Lemma replace_between n parts fuel : Forall part_ok parts -> (String.length (between copy_number parts) <= fuel)%nat ->
    replace [(copy_number, format_uint n)] fuel (between copy_number parts) = between (format_uint n) parts.
  Proof.
    intros H. revert fuel. induction H as [|p parts Hp H IH]; intros fuel Hf; [now destruct fuel|].
    destruct parts as [|p2 parts].
    - cbn [between] in *. rewrite <- (sapp_nil p) at 1. rewrite replace_skip; auto.
      destruct (fuel - String.length p)%nat; cbn; now rewrite sapp_nil.
    - rewrite (between_cons copy_number) in * by discriminate. rewrite (between_cons (format_uint n)) by discriminate.
      rewrite !slen_app in Hf. rewrite replace_skip; eauto; [|lia].
      f_equal. remember (fuel - String.length p)%nat as fu. destruct fu; [cbn in Hf; lia|].
      remember (between copy_number (p2 :: parts)) as tl. 
      assert (R : replace [(copy_number, format_uint n)] (S fu) (copy_number ++ tl) =
                  format_uint n ++ replace [(copy_number, format_uint n)] fu tl).
      { change (copy_number ++ tl) with (String "/" ("*!copy-number*/" ++ tl)) at 1. cbn [replace].
        change (String "/" ("*!copy-number*/" ++ tl)) with (copy_number ++ tl).
        rewrite (first_old_some _ _ copy_number (format_uint n) tl); auto; [now left|].
        intros o' w' r' [[= <- <-]|[]] E. apply sapp_inj_l in E. auto. }
      rewrite R. f_equal. apply IH. cbn in Hf. lia.
  Qed.

  Lemma occurs_digits sub a d b : every (fun c => ~ digit c) sub -> every digit d -> d <> "" ->
    occurs sub (a ++ d ++ b) -> occurs sub a \/ occurs sub b.
  Proof.
    intros Hs Hd Hn (x & y & E). destruct (app_split _ _ _ _ E) as [[t Ht]|[t Ht]].
    - (* a = x ++ t *)
      subst a. rewrite sapp_assoc in E. apply sapp_inj_l in E.
      destruct (app_split _ _ _ _ E) as [[u Hu]|[u Hu]].
      + left. subst t. exists x, u. reflexivity.
      + subst sub. destruct u as [|c u].
        * left. exists x, "". now rewrite sapp_nil, sapp_nil.
        * rewrite sapp_assoc in E. apply sapp_inj_l in E. destruct d as [|e d]; [congruence|].
          cbn in E. injection E as -> _. apply every_app in Hs as [_ [Hs _]]. destruct Hd as [Hd _]. tauto.
    - (* x = a ++ t *)
      subst x. rewrite sapp_assoc in E. apply sapp_inj_l in E.
      destruct (app_split _ _ _ _ E) as [[u Hu]|[u Hu]].
      + (* d = t ++ u: sub starts in d *)
        subst d. rewrite sapp_assoc in E. apply sapp_inj_l in E. destruct u as [|c u].
        * right. cbn in E. subst b. exists "", y. reflexivity.
        * destruct sub as [|e sub]; [left; exists "", a; reflexivity|].
          cbn in E. injection E as -> _. apply every_app in Hd as [_ [Hd _]]. destruct Hs as [Hs _]. tauto.
      + subst t. rewrite sapp_assoc in E. apply sapp_inj_l in E. right. exists u, y. auto.
  Qed.
  Lemma copy_text_clean n parts : Forall part_ok parts -> ~ occurs copy_number (between (format_uint n) parts).
  Proof.
    assert (C : forall p, part_ok p -> ~ occurs copy_number p).
    { intros p H X. apply H. eapply occurs_trans; [|exact X]. now exists "", "/". }
    induction 1 as [|p parts Hp H IH].
    - intros (a & b & E). destruct a; discriminate.
    - destruct parts as [|p2 parts]; [now apply C|]. rewrite between_cons by discriminate. intros X.
      apply occurs_digits in X as [X|X]; [now apply C in X|auto| | |].
      + cbn. repeat split; intros [A B]; vm_compute in A, B; lia.
      + apply format_uint_digits.
      + unfold format_uint, DecimalString.NilZero.string_of_uint. destruct (N.to_uint n); discriminate.
  Qed.

  Lemma word_char_spec c : is_word c = true <-> word_char c.
  Proof.
    unfold is_word, word_char, letter, is_letter. rewrite !orb_true_iff, is_digit_digit, !Ascii.eqb_eq.
    rewrite !andb_true_iff, !Nat.leb_le. tauto.
  Qed.
  Lemma word_of w c r : every word_char w -> ~ word_char c -> fst (span is_word (w ++ String c r)) = w.
  Proof.
    intros Hw Hc. rewrite span_app; [reflexivity| |].
    - eapply every_impl; [|exact Hw]. intros x. apply word_char_spec.
    - destruct (is_word c) eqn:E; auto. apply word_char_spec in E. tauto.
  Qed.
  Lemma new_stmt_between a b p ps : word_ends p -> new_stmt name (between a (p :: ps)) = new_stmt name (between b (p :: ps)).
  Proof.
    intros (w & c & r & -> & Hw & Hc).
    assert (G : forall sep, exists t, between sep ((w ++ String c r) :: ps) = w ++ String c t).
    { intros sep. destruct ps as [|p2 ps]; [now exists r|]. rewrite between_cons by discriminate.
      exists (r ++ sep ++ between sep (p2 :: ps)). now rewrite sapp_assoc. }
    destruct (G a) as [x ->], (G b) as [y ->]. unfold new_stmt. now rewrite !word_of.
  Qed.

  Lemma copy_stmt_written p ps rest i f :
    Forall part_ok (p :: ps) -> word_ends p -> Forall (fun m => ~ occurs "copies" m) rest ->
    no_margin (between copy_number (p :: ps)) -> no_margin (between (format_uint i) (p :: ps)) ->
    match copy_stmt T name i (between copy_number (p :: ps)) rest f with
    | Some (s, f1) => statements T name (between (format_uint i) (p :: ps)) rest f = Some ([s], f1)
    | None => statements T name (between (format_uint i) (p :: ps)) rest f = None
    end.
  Proof.
    intros OK WE NC NM NM'. unfold copy_stmt, statements. rewrite trim_space_id by auto.
    rewrite (new_stmt_between copy_number (format_uint i)) by auto.
    pose proof (modifiers_frame rest (new_stmt name (between (format_uint i) (p :: ps)))
                  (see_ddl (new_stmt name (between (format_uint i) (p :: ps))) f) NC) as MF.
    destruct (modifiers _ _ _ _ _) as [[s0 f0|]|]; [|easy|reflexivity].
    rewrite !finish_bind. unfold replace_copy at 1. rewrite replace_between by auto.
    rewrite (replace_copy_none (between (format_uint i) (p :: ps)) 0) by now apply copy_text_clean.
    destruct (expand_csv _ _ _) as [[q f1]|]; [|reflexivity].
    destruct (bind_stmt _ _ _ _ _) as [[s f2]|]; reflexivity.
  Qed.

  Lemma copies_written p ps rest : Forall part_ok (p :: ps) -> word_ends p ->
    Forall (fun m => ~ occurs "copies" m) rest -> no_margin (between copy_number (p :: ps)) ->
    (forall i, no_margin (between (format_uint i) (p :: ps))) ->
    forall n i f, copies T name i n (between copy_number (p :: ps)) rest f =
      written T name (fun i => between (format_uint i) (p :: ps)) rest i n f.
  Proof.
    intros OK WE NC NM NM'. induction n as [|n IH]; intros i f; [reflexivity|]. cbn [copies written].
    pose proof (copy_stmt_written p ps rest i f OK WE NC NM (NM' i)) as C.
    destruct (copy_stmt _ _ _ _ _ _) as [[s f1]|]; rewrite C; [|reflexivity]. cbn [fst snd]. rewrite IH.
    destruct (written _ _ _ _ _ _ _) as [[ss f2]|]; reflexivity.
  Qed.

  (** ** Margins of the texts *)
  Lemma starts_app P a b : a <> "" -> starts P (a ++ b) <-> starts P a.
  Proof. destruct a; [congruence|]. cbn. tauto. Qed.
  Lemma last_app a b x c : b <> "" -> a ++ b = x ++ String c "" -> exists y, b = y ++ String c "".
  Proof.
    intros Hb. revert x. induction a as [|d a IH]; intros x E; [now exists x|].
    destruct x as [|e x]; cbn in E.
    - injection E as _ E. destruct a; [destruct b; [congruence|discriminate]|discriminate].
    - injection E as _ E. eauto.
  Qed.
  Definition ends_ok (s : string) : Prop := forall a c, s = a ++ String c "" -> ~ ws c.
  Lemma ends_app a b : b <> "" -> ends_ok b -> ends_ok (a ++ b).
  Proof. intros Hb H x c E. apply last_app in E as [y E]; auto. eapply H; eauto. Qed.
  Lemma ends_app_inv a b : b <> "" -> ends_ok (a ++ b) -> ends_ok b.
  Proof. intros Hb H x c ->. apply (H (a ++ x) c). now rewrite sapp_assoc. Qed.
  Lemma ends_between u v p ps : u <> "" -> v <> "" -> ends_ok v -> ends_ok (between u (p :: ps)) -> ends_ok (between v (p :: ps)).
  Proof.
    intros Hu Hv EV. revert p. induction ps as [|p2 ps IH]; intros p H; [exact H|].
    rewrite between_cons in * by discriminate.
    assert (N : forall w, w <> "" -> w ++ between w (p2 :: ps) <> "") by (intros [|]; [congruence|discriminate]).
    apply ends_app; auto. apply ends_app_inv in H; auto.
    destruct (string_dec (between v (p2 :: ps)) "") as [E|E].
    - rewrite E, sapp_nil. exact EV.
    - apply ends_app; auto. apply IH. apply ends_app_inv in H; auto.
      intros X. apply E. destruct ps; [exact X|]. rewrite between_cons in X by discriminate.
      destruct p2; [destruct u; [congruence|discriminate]|discriminate].
  Qed.
  Lemma margin_between p ps i : word_ends p -> no_margin (between copy_number (p :: ps)) ->
    no_margin (between (format_uint i) (p :: ps)).
  Proof.
    intros (w & c & r & -> & _ & _) [M1 M2].
    assert (H : forall sep, exists t, between sep ((w ++ String c r) :: ps) = (w ++ String c r) ++ t).
    { intros sep. destruct ps; [exists ""; now rewrite sapp_nil|]. rewrite between_cons by discriminate. eauto. }
    assert (NE : w ++ String c r <> "") by (destruct w; discriminate).
    split.
    - destruct (H copy_number) as [x Hx], (H (format_uint i)) as [y Hy]. rewrite Hx in M1. rewrite Hy.
      rewrite starts_app in * by auto. exact M1.
    - apply (ends_between copy_number); auto; try discriminate.
      + unfold format_uint, DecimalString.NilZero.string_of_uint. destruct (N.to_uint i); discriminate.
      + intros a d E. pose proof (format_uint_digits i) as D. rewrite E in D. apply every_app in D as [_ [D _]].
        now apply digit_not_ws.
  Qed.

  Lemma contains_spec p s : contains p s = true <-> occurs p s.
  Proof.
    induction s as [|c s IH]; cbn [contains]; rewrite orb_true_iff, has_prefix_spec.
    - split.
      + intros [[r E]|E]; [exists "", r; exact E|discriminate].
      + intros (a & b & E). left. destruct a; [now exists b|discriminate].
    - rewrite IH. split.
      + intros [[r E]|E]; [exists "", r; exact E|now apply occurs_cons].
      + intros (a & b & E). destruct a as [|d a]; [left; now exists b|]. injection E as _ E. right. exists a, b. auto.
  Qed.
  Lemma filter_copies l : Forall (fun m => ~ occurs "copies" m) l -> filter (fun m => negb (has_prefix "copies" m)) l = l.
  Proof.
    induction 1 as [|m l Hm H IH]; cbn [filter]; auto. destruct (has_prefix "copies" m) eqn:E; cbn [negb].
    - exfalso. apply Hm. apply has_prefix_spec in E as [r ->]. apply occurs_head.
    - now rewrite IH.
  Qed.

  Lemma statements_copies p ps ds n pre post w f :
    decimal ds n -> (2 <= n < 2 ^ 63)%N ->
    Forall (fun m => ~ occurs "copies" m) (pre ++ post) -> Forall (fun m => ~ occurs "save-" m) pre ->
    Forall part_ok (p :: ps) -> word_ends p -> no_margin (between copy_number (p :: ps)) -> every ws w ->
    statements T name (between copy_number (p :: ps) ++ w) (pre ++ ("copies: " ++ ds)%string :: post) f =
    match written T name (fun i => between (format_uint i) (p :: ps)) (pre ++ post) 1 (N.to_nat n) f with
    | Some (s :: ss, f1) =>
        Some ((if (existsb (has_prefix "prepare") (pre ++ post) && match ps with [] => true | _ => false end)%bool
               then set_multi s n else s) :: ss, f1)
    | _ => None
    end.
  Proof.
    intros D Hn NC NS OK WE NM W. pose proof NC as NC0. apply Forall_app in NC as [NC1 NC2].
    assert (MG : forall i, no_margin (between (format_uint i) (p :: ps))) by (intros i; now apply margin_between).
    rewrite <- copies_written by auto.
    unfold statements. rewrite trim_space_pad by auto. set (q := between copy_number (p :: ps)) in *.
    set (s := new_stmt name q). rewrite modifiers_app.
    pose proof (modifiers_frame pre s (see_ddl s f) NC1) as MF.
    assert (N2 : exists k, N.to_nat n = S k) by (exists (N.to_nat n - 1)%nat; lia). destruct N2 as [k Hk].
    destruct (modifiers T name pre s (see_ddl s f)) as [[s1 f1|]|] eqn:M.
    - rewrite (MF NS). cbn [modifiers]. rewrite (copies_modifier ds n) by (auto; lia).
      destruct (n =? 0)%N eqn:Z; [apply N.eqb_eq in Z; lia|].
      assert (FI : filter (fun m => negb (has_prefix "copies" m)) (pre ++ ("copies: " ++ ds)%string :: post)%list = (pre ++ post)%list).
      { rewrite filter_app. cbn [filter]. replace (has_prefix "copies" ("copies: " ++ ds)) with true by reflexivity.
        cbn [negb]. now rewrite <- filter_app, filter_copies. }
      rewrite FI, Hk. unfold s. rewrite copies_seen. destruct (copies _ _ _ _ _ _ _) as [[ss f2]|]; [|reflexivity]. cbn [fst snd].
      destruct ss as [|x ss]; [reflexivity|]. do 4 f_equal. f_equal.
      destruct ps as [|p2 ps]; unfold q.
      + cbn [between]. inversion OK; subst. destruct (contains copy_number p) eqn:C; auto. apply contains_spec in C.
        exfalso. apply H1. eapply occurs_trans; [|exact C]. now exists "", "/".
      + assert (C : contains copy_number (between copy_number (p :: p2 :: ps)) = true).
        { apply contains_spec. rewrite between_cons by discriminate. now exists p, (between copy_number (p2 :: ps)). }
        now rewrite C.
    - easy.
    - (* the modifiers before "copies" are refused *)
      rewrite Hk. cbn [copies]. unfold copy_stmt. fold s. rewrite modifiers_app, M. reflexivity.
  Qed.

  Lemma statements_no_copies q pre post f w : 
    Forall (fun m => ~ occurs "copies" m) pre -> Forall (fun m => ~ occurs "save-" m) pre ->
    statements T name (q ++ w) (pre ++ "copies: 0" :: post) f =
    match modifiers T name pre (new_stmt name (trim_space (q ++ w))) (see_ddl (new_stmt name (trim_space (q ++ w))) f) with
    | Some (MGo _ _) => Some ([], see_ddl (new_stmt name (trim_space (q ++ w))) f)
    | _ => None
    end.
  Proof.
    intros NC NS. unfold statements. rewrite modifiers_app. set (s := new_stmt name (trim_space (q ++ w))).
    pose proof (modifiers_frame pre s (see_ddl s f) NC) as MF.
    destruct (modifiers T name pre s (see_ddl s f)) as [[s1 f1|]|]; [|easy|reflexivity].
    rewrite (MF NS). reflexivity.
  Qed.
End file.
