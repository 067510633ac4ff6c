(** Proofs about the text that is sent, kinds of statements and plain files. *)
From Coq Require Import Permutation.
From Verif Require Import Prelude ConfigModel ConfigSpec ConfigVarsProofs ConfigProofs TrxModel TrxSpec TrxKeyProofs
  TrxRowProofs TrxProofs TrxStmtProofs TrxCsvProofs TrxCopyProofs TrxLineProofs.
#[local] Open Scope list_scope.
#[local] Open Scope string_scope.

(** ** Sprintf *)
Lemma sprintf_char c t vals : c <> "%"%char -> sprintf (String c t) vals = option_map (String c) (sprintf t vals).
Proof.
  intros N. destruct c as [[] [] [] [] [] [] [] []]; try reflexivity. now destruct N.
Qed.
Lemma option_map_map {A B C} (f : B -> C) (g : A -> B) o : option_map f (option_map g o) = option_map (fun x => f (g x)) o.
Proof. now destruct o. Qed.
Lemma sprintf_lit s t vals : no_percent s -> sprintf (s ++ t) vals = option_map (append s) (sprintf t vals).
Proof.
  induction s as [|c s IH]; cbn [append]; intros N.
  - destruct (sprintf t vals); reflexivity.
  - destruct N as [N1 N2]. rewrite sprintf_char by auto. rewrite IH by auto. rewrite option_map_map. reflexivity.
Qed.
Lemma sprintf_value fmt a b t v vals : prints fmt a b ->
  sprintf (fmt ++ t) (v :: vals) = option_map (fun s => a ++ v ++ b ++ s) (sprintf t vals).
Proof.
  intros (x & X & -> & Na & Nb). rewrite sapp_assoc, sprintf_lit by auto.
  change (String "%" (String x b) ++ t) with (String "%" (String x (b ++ t))).
  replace (sprintf (String "%" (String x (b ++ t))) (v :: vals)) with (option_map (append v) (sprintf (b ++ t) vals)).
  - rewrite sprintf_lit by auto. rewrite !option_map_map. reflexivity.
  - cbn in X. destruct X as [<-|[<-|[<-|[]]]]; reflexivity.
Qed.

Lemma sprintf_sent pre post F l : forall last vals,
  (forall s, In (TLit s) l -> no_percent s) ->
  (forall k, In k (key_names l) /\ k <> "@PREV" \/ In k (prevs last l) -> prints (F k) (pre k) (post k)) ->
  List.length vals = List.length (key_names l) ->
  sprintf (filled F last l) vals = Some (sent pre post last l vals).
Proof.
  induction l as [|[s|n c] l IH]; intros last vals L P N.
  - destruct vals; [reflexivity|discriminate].
  - cbn [filled sent key_names prevs] in *. rewrite sprintf_lit by (apply L; left; auto).
    rewrite IH; [reflexivity| |exact P|exact N]. intros; apply L; now right.
  - cbn [filled sent key_names prevs] in *. destruct vals as [|v vals]; [discriminate|].
    assert (L' : forall s, In (TLit s) l -> no_percent s) by (intros; apply L; now right).
    destruct (String.eqb_spec n "PREV") as [->|NP].
    + rewrite (sprintf_value _ (pre last) (post last)) by (apply P; right; left; auto).
      rewrite IH; [reflexivity|exact L'| |now injection N].
      intros k [[K1 K2]|K]; apply P; [left; split; [now right|auto]|right; now right].
    + rewrite (sprintf_value _ (pre ("@" ++ n)) (post ("@" ++ n))).
      * rewrite IH; [reflexivity|exact L'| |now injection N].
        intros k [[K1 K2]|K]; apply P; [left; split; [now right|auto]|right; auto].
      * apply P. left. split; [now left|]. intros E. apply NP. now injection E.
Qed.

(** ** Kinds *)
Lemma upper_spec c u : ~ (97 <= nat_of_ascii u <= 122)%nat -> upper c = u <-> letter_pair c u.
Proof.
  intros U. unfold upper, letter_pair. destruct (Nat.leb 97 (nat_of_ascii c) && Nat.leb (nat_of_ascii c) 122)%bool eqn:E.
  - apply andb_true_iff in E as [E1 E2]. apply Nat.leb_le in E1, E2. split.
    + intros <-. right. rewrite nat_ascii_embedding by lia. lia.
    + intros [->|[_ H]]; [lia|]. rewrite H. replace (_ + 32 - 32)%nat with (nat_of_ascii u) by lia. apply ascii_nat_embedding.
  - split; [auto|]. intros [?|[H _]]; auto. exfalso.
    destruct (Nat.leb_spec 97 (nat_of_ascii c)), (Nat.leb_spec (nat_of_ascii c) 122); cbn in E; try discriminate; lia.
Qed.
Definition capital (s : string) : Prop := every (fun c => ~ (97 <= nat_of_ascii c <= 122)%nat) s.
Lemma to_upper_spec w : forall u, capital u -> to_upper w = u <-> spells w u.
Proof.
  induction w as [|c w IH]; intros [|d u] C; cbn; try (split; [discriminate|tauto]); [tauto|].
  destruct C as [C1 C2]. rewrite <- (IH u C2), <- (upper_spec c d C1). split; [intros [= <- <-]; auto|intros [-> ->]; auto].
Qed.
Lemma is_word_spec c : is_word c = true <-> word_char c.
Proof.
  unfold is_word, word_char. rewrite !orb_true_iff, is_digit_digit, Ascii.eqb_eq. unfold is_letter, letter.
  rewrite orb_true_iff, !andb_true_iff, !Nat.leb_le. tauto.
Qed.
Lemma first_word_span q w : first_word q w -> fst (span is_word q) = w.
Proof.
  intros (r & -> & W & R). rewrite span_app.
  - reflexivity.
  - eapply every_impl; [|exact W]. intros c. apply is_word_spec.
  - destruct r as [|c r]; auto. destruct (is_word c) eqn:E; auto. exfalso. apply R. now apply is_word_spec.
Qed.
Lemma first_word_exists q : exists w, first_word q w.
Proof.
  exists (fst (span is_word q)), (snd (span is_word q)). split; [apply span_split|]. split.
  - eapply every_impl; [|apply span_true]. intros c. apply is_word_spec.
  - induction q as [|c q IH]; cbn; [auto|]. destruct (is_word c) eqn:E.
    + destruct (span is_word q); cbn in *; auto.
    + cbn. rewrite <- is_word_spec. congruence.
Qed.

Lemma is_in w l : Forall capital l -> existsb (String.eqb (to_upper w)) l = true <-> exists u, In u l /\ spells w u.
Proof.
  intros C. rewrite existsb_exists. split; intros (u & I & H); exists u; split; auto;
    [apply String.eqb_eq in H|apply String.eqb_eq]; (eapply to_upper_spec; [rewrite Forall_forall in C; apply C; auto|exact H]).
Qed.

Definition kind (w : string) (s : pstmt) : Prop :=
  (p_resultset s = true <-> spells w "SELECT") /\
  (p_begin s = true <-> spells w "BEGIN" \/ spells w "START") /\
  (p_commit s = true <-> spells w "COMMIT") /\
  (p_write s = true <-> exists u, In u ["INSERT"; "UPDATE"; "DELETE"; "REPLACE"] /\ spells w u) /\
  (p_ddl s = true <-> exists u, In u ["ALTER"; "CREATE"; "DROP"; "RENAME"; "TRUNCATE"] /\ spells w u).

Section file.
  Context (T : tenv) (name : string).

  Lemma new_kind q w : first_word q w -> kind w (new_stmt name q).
  Proof.
    intros F. apply first_word_span in F. unfold kind, new_stmt. rewrite F. cbn [p_resultset p_begin p_commit p_write p_ddl].
    assert (C : forall x, In x ["SELECT"; "BEGIN"; "START"; "COMMIT"; "INSERT"; "UPDATE"; "DELETE"; "REPLACE"; "ALTER"; "CREATE";
      "DROP"; "RENAME"; "TRUNCATE"] -> capital x).
    { intros x Hx. cbn [In] in Hx. repeat (destruct Hx as [<-|Hx]; [unfold capital; cbn [every]; repeat split; unfold nat_of_ascii; cbn; lia|]). destruct Hx. }
    assert (I : forall l, incl l ["SELECT"; "BEGIN"; "START"; "COMMIT"; "INSERT"; "UPDATE"; "DELETE"; "REPLACE"; "ALTER"; "CREATE";
      "DROP"; "RENAME"; "TRUNCATE"] -> existsb (String.eqb (to_upper w)) l = true <-> exists u, In u l /\ spells w u).
    { intros l Hl. apply is_in. rewrite Forall_forall. auto. }
    rewrite !I by (intros x Hx; cbn [In] in *; tauto).
    split; [|split; [|split; [|split]]]; [| | |tauto|tauto].
    - split; [intros (u & [<-|[]] & S); auto|intros S; exists "SELECT"; cbn [In]; auto].
    - split; [intros (u & [<-|[<-|[]]] & S); auto|intros [S|S]; [exists "BEGIN"|exists "START"]; cbn [In]; auto].
    - split; [intros (u & [<-|[]] & S); auto|intros S; exists "COMMIT"; cbn [In]; auto].
  Qed.

  (** What neither modifiers nor the rest change. *)
  Definition same_kind (s s' : pstmt) : Prop :=
    p_trx s' = p_trx s /\ p_resultset s' = p_resultset s /\ p_begin s' = p_begin s /\ p_commit s' = p_commit s /\
    p_write s' = p_write s /\ p_ddl s' = p_ddl s.
  Lemma same_kind_trans a b c : same_kind a b -> same_kind b c -> same_kind a c.
  Proof. unfold same_kind. intuition congruence. Qed.
  Lemma same_kind_refl a : same_kind a a. Proof. unfold same_kind; tauto. Qed.
  Lemma kind_same w s s' : same_kind s s' -> kind w s -> kind w s'.
  Proof. unfold kind. intros (_ & -> & -> & -> & -> & ->); auto. Qed.

  Lemma modifier_kind m s f s' f' : modifier T name m s f = Some (MGo s' f') -> same_kind s s' /\ f_ddl f' = f_ddl f.
  Proof.
    assert (COL : forall f i c o f1, column T name f i c = Some (o, f1) -> f_ddl f1 = f_ddl f).
    { intros g i c o f1. unfold column. destruct (String.eqb _ _).
      - destruct (sget _ _); intros [= _ <-]; reflexivity.
      - destruct (sget _ _); [discriminate|]. destruct (te_make _ _ _ _); [|discriminate]. intros [= _ <-]; reflexivity. }
    assert (COLS : forall cs f i os f1, columns T name f i cs = Some (os, f1) -> f_ddl f1 = f_ddl f).
    { induction cs as [|c cs IH]; intros g i os f1; cbn; [now intros [= _ <-]|].
      destruct (column T name g i c) as [[o g1]|] eqn:E; [|discriminate]. cbn.
      destruct (columns T name g1 (S i) cs) as [[os' g2]|] eqn:E2; [|discriminate]. cbn. intros [= _ <-].
      apply IH in E2. apply COL in E. congruence. }
    unfold modifier. destruct (fields m) as [|w args]; [discriminate|]. cbv zeta.
    destruct (_ || _)%bool; [intros [= <- <-]; split; [unfold same_kind; cbn; tauto|auto]|].
    destruct (String.eqb _ _).
    { destruct args; [discriminate|]. destruct (e_parse_duration _ _); [|discriminate]. intros [= <- <-]; split; [unfold same_kind; cbn; tauto|auto]. }
    destruct (String.eqb _ _).
    { destruct args; [discriminate|]. destruct (parse_uint64 _); [|discriminate].
      destruct (match args with [b] => parse_uint64 b | _ => Some 0%N end); [|discriminate].
      intros [= <- <-]; split; [unfold same_kind; cbn; tauto|auto]. }
    destruct (_ || _)%bool.
    { destruct args as [|a [|b [|? ?]]]; try discriminate. destruct (e_parse_bytes (te_env T) b); [|discriminate].
      intros [= <- <-]; split; [unfold same_kind; cbn; tauto|auto]. }
    destruct (String.eqb _ _).
    { destruct (p_resultset s) eqn:R; [discriminate|]. destruct args as [|a args]; [discriminate|].
      destruct (column T name f 0 a) as [[o f1]|] eqn:E; [|discriminate]. intros [= <- <-].
      split; [unfold same_kind; cbn; rewrite R; tauto|]. now apply COL in E. }
    destruct (String.eqb _ _).
    { destruct (columns T name f 0 args) as [[os f1]|] eqn:E; [|discriminate]. intros [= <- <-].
      split; [unfold same_kind; cbn; tauto|]. now apply COLS in E. }
    destruct (String.eqb _ _); [|discriminate].
    destruct args as [|a args]; [discriminate|]. destruct (atoi a); [|discriminate]. cbn.
    destruct (z <? 0)%Z; [discriminate|]. destruct (z =? 1)%Z; [|discriminate].
    intros [= <- <-]; split; [unfold same_kind; cbn; tauto|auto].
  Qed.
  Lemma modifier_copies m s f n f' : modifier T name m s f = Some (MCopies n f') -> f' = f.
  Proof.
    unfold modifier. destruct (fields m) as [|w args]; [discriminate|]. cbv zeta.
    destruct (_ || _)%bool; [discriminate|].
    destruct (String.eqb _ _).
    { destruct args; [discriminate|]. destruct (e_parse_duration _ _); discriminate. }
    destruct (String.eqb _ _).
    { destruct args; [discriminate|]. destruct (parse_uint64 _); [|discriminate].
      destruct (match args with [b] => parse_uint64 b | _ => Some 0%N end); discriminate. }
    destruct (_ || _)%bool.
    { destruct args as [|a [|b [|? ?]]]; try discriminate. destruct (e_parse_bytes (te_env T) b); discriminate. }
    destruct (String.eqb _ _).
    { destruct (p_resultset s) eqn:R; [discriminate|]. destruct args as [|a args]; [discriminate|].
      destruct (column T name f 0 a) as [[o f1]|] eqn:E; discriminate. }
    destruct (String.eqb _ _).
    { destruct (columns T name f 0 args) as [[os f1]|] eqn:E; discriminate. }
    destruct (String.eqb _ _); [|discriminate].
    destruct args as [|a args]; [discriminate|]. destruct (atoi a); [|discriminate]. cbn.
    destruct (z <? 0)%Z; [discriminate|]. destruct (z =? 1)%Z; [discriminate|]. now intros [= _ <-].
  Qed.
  Lemma modifiers_kind ms : forall s f r, modifiers T name ms s f = Some r ->
    match r with MGo s' f' => same_kind s s' /\ f_ddl f' = f_ddl f | MCopies _ f' => f_ddl f' = f_ddl f end.
  Proof.
    induction ms as [|m ms IH]; intros s f r H; cbn in H.
    - injection H as <-. split; [unfold same_kind; cbn; tauto|auto].
    - destruct (modifier T name m s f) as [[s1 f1|n f1]|] eqn:E; [| |discriminate]; cbn in H.
      + apply modifier_kind in E as [E1 E2]. apply IH in H. destruct r; [|congruence].
        destruct H as [H1 H2]. split; [eapply same_kind_trans; eauto|congruence].
      + injection H as <-. apply modifier_copies in E. now subst.
  Qed.

  Lemma inputs_ddl pr ks : forall prev f fmts ins f' fmts', inputs T name pr ks prev f fmts = Some (ins, f', fmts') -> f_ddl f' = f_ddl f.
  Proof.
    induction ks as [|k ks IH]; intros prev f fmts ins f' fmts' H.
    - cbn in H. now injection H as _ <- _.
    - rewrite inputs_cons in H. destruct (one_input T name prev (trim_call k) f) as [[fmt f1]|] eqn:E; [|discriminate].
      cbn in H. apply IH in H. rewrite H. clear H. unfold one_input in E.
      destruct (sget (trim_call k) (f_keys f)) as [x|].
      + destruct (k_col x); [now injection E as _ <-|]. destruct (String.eqb _ _); [|now injection E as _ <-].
        destruct (prev_gen _ _); [now injection E as _ <-|discriminate].
      + destruct (String.eqb _ _); [destruct (prev_gen _ _); [now injection E as _ <-|discriminate]|].
        destruct (sget (cfg_key _) _); [|discriminate]. cbv zeta in E. destruct (te_make _ _ _ _); [|discriminate]. now injection E as _ <-.
  Qed.
  Lemma finish_kind cn q s f s' f' : finish T name cn q s f = Some (s', f') -> same_kind s s' /\ f_ddl f' = f_ddl f.
  Proof.
    unfold finish. destruct (expand_csv _ _ _) as [[q1 f1]|] eqn:E; [|discriminate]. cbn [fst snd].
    assert (D : f_ddl f1 = f_ddl f).
    { unfold expand_csv in E. destruct (find_csv _) as [[[[a b] c] d]|]; [|now injection E as _ <-].
      destruct (digits_value 0 b); [|discriminate]. destruct (_ <? _)%N; [|discriminate].
      destruct (csv_keys _ _ _) as [r|]; [|discriminate]. cbn in E. now injection E as _ <-. }
    destruct (find_keys q1) as [|k ks]; [intros [= <- <-]; split; [unfold same_kind; cbn; tauto|auto]|].
    destruct (inputs _ _ _ _ _ _ _) as [[[ins f2] fmts]|] eqn:I; [|discriminate]. cbn.
    intros [= <- <-]. apply inputs_ddl in I. split; [unfold same_kind; cbn; tauto|congruence].
  Qed.

  Lemma copies_kind q mods : forall n i f ss f', copies T name i n q mods f = Some (ss, f') ->
    Forall (fun s => same_kind (new_stmt name q) s) ss /\ f_ddl f' = (f_ddl f || match n with O => false | _ => p_ddl (new_stmt name q) end)%bool.
  Proof.
    induction n as [|n IH]; intros i f ss f' H; cbn in H.
    - injection H as <- <-. split; [constructor|]. now rewrite orb_false_r.
    - unfold copy_stmt in H. destruct (modifiers T name mods _ _) as [[s1 f1|]|] eqn:M; try discriminate.
      cbn in H. destruct (finish T name i q s1 f1) as [[s2 f2]|] eqn:F; [|discriminate]. cbn in H.
      destruct (copies T name (i + 1) n q mods f2) as [[ss' f3]|] eqn:C; [|discriminate]. cbn in H. injection H as <- <-.
      apply modifiers_kind in M as [M1 M2]. apply finish_kind in F as [F1 F2]. apply IH in C as [C1 C2].
      split; [constructor; [eapply same_kind_trans; eauto|auto]|]. rewrite C2, F2, M2. cbn [see_ddl f_ddl].
      destruct n, (f_ddl f), (p_ddl (new_stmt name q)); reflexivity.
  Qed.

  Lemma statements_kind str mods f ss f' : statements T name str mods f = Some (ss, f') ->
    Forall (fun s => same_kind (new_stmt name (trim_space str)) s) ss /\
    f_ddl f' = (f_ddl f || p_ddl (new_stmt name (trim_space str)))%bool.
  Proof.
    unfold statements. set (s := new_stmt name (trim_space str)).
    destruct (modifiers T name mods s (see_ddl s f)) as [[s1 f1|n f1]|] eqn:M; [| |discriminate]; apply modifiers_kind in M.
    - destruct M as [M1 M2]. cbn. destruct (finish T name 0 _ s1 f1) as [[s2 f2]|] eqn:F; [|discriminate].
      apply finish_kind in F as [F1 F2]. cbn. intros [= <- <-]. split; [repeat constructor; eapply same_kind_trans; eauto|].
      rewrite F2, M2. reflexivity.
    - cbn. destruct (n =? 0)%N; [intros [= <- <-]; split; [constructor|now rewrite M]|].
      destruct (copies T name 1 (N.to_nat n) _ _ f1) as [[ss' f2]|] eqn:C; [|discriminate]. cbn.
      apply copies_kind in C as [C1 C2]. destruct ss' as [|s1 ss']; [discriminate|]. intros [= <- <-].
      inversion C1; subst. split.
      + constructor; auto. destruct (_ && _)%bool; auto.
      + rewrite C2, M. change (f_ddl (see_ddl s f)) with (f_ddl f || p_ddl s)%bool. fold s.
        destruct (N.to_nat n); [apply orb_false_r|]. now rewrite <- orb_assoc, orb_diag.
  Qed.
End file.

Section plain.
  Context (T : tenv) (name : string) (ORDER : forall ks, Permutation (te_order T ks) ks).

  (** A text without data keys and substitutions, without modifiers. *)
  Definition plain_text (q : string) : Prop := clear [TLit q] /\ ~ occurs "/*!" q.

  Lemma plain_statement q f ss f' : plain_text q -> no_margin q -> statements T name q [] f = Some (ss, f') ->
    exists s, ss = [s] /\ p_query s = q /\ p_inputs s = [] /\ f' = see_ddl (new_stmt name q) f.
  Proof.
    intros [C N] M. unfold statements. rewrite trim_space_id by auto. cbn. unfold finish.
    rewrite replace_copy_none by (intros X; apply N; eapply occurs_le; [|exact X]; now exists "", "copy-number*/").
    unfold expand_csv. rewrite find_csv_none by (intros X; apply N; eapply occurs_le; [|exact X]; now exists "", "csv").
    cbn. pose proof (find_keys_sql [TLit q] C) as K. cbn in K. rewrite sapp_nil in K. rewrite K.
    intros [= <- <-]. eauto.
  Qed.

  Lemma parsed_plain us : Forall (fun u => snd u = [] /\ plain_text (fst u) /\ no_margin (fst u)) us ->
    forall f ss f', parsed T name us f ss f' -> map p_query ss = map fst us.
  Proof.
    induction 1 as [|[q mods] us (E & P & M) _ IH]; intros f ss f' H; inversion H; subst; [reflexivity|].
    cbn in E, P, M. subst. match goal with X : Forall2 _ [] _ |- _ => inversion X; subst end.
    match goal with X : statements _ _ _ _ _ = _ |- _ => apply plain_statement in X as (s & -> & Q & _) end; auto.
    cbn. rewrite Q. f_equal. eauto.
  Qed.

  Lemma units_margin rs : Forall (Forall (fun l => l <> "" /\ no_margin l)) rs -> forall pend,
    Forall (fun u => no_margin (fst u)) (units pend rs).
  Proof.
    induction 1 as [|r rs Hr _ IH]; intros pend; cbn; [constructor|].
    destruct (sql_lines r) as [|q qs] eqn:E; [apply IH|]. constructor; [|apply IH]. cbn [fst].
    change (no_margin (joined (q :: qs))). rewrite <- E. apply joined_margin; [congruence|]. unfold sql_lines. rewrite Forall_forall in *.
    intros x Hx. apply filter_In in Hx as [Hx _]. auto.
  Qed.
  Lemma runs_lines ls : Forall no_margin ls -> forall cur, Forall (fun l => l <> "" /\ no_margin l) cur ->
    Forall (Forall (fun l => l <> "" /\ no_margin l)) (runs cur ls).
  Proof.
    induction 1 as [|l ls Hl _ IH]; intros cur C.
    - destruct cur; cbn; [constructor|]. constructor; [exact C|constructor].
    - destruct l as [|c l].
      + cbn. destruct cur; [now apply IH|]. constructor; [auto|]. now apply IH.
      + change (Forall (Forall (fun l => l <> "" /\ no_margin l)) (runs (cur ++ [String c l])%list ls)).
        apply IH. apply Forall_app. split; auto. repeat constructor; [discriminate|apply Hl|apply Hl].
  Qed.
  Lemma before_eof_all P ls : Forall P ls -> Forall P (before_eof ls).
  Proof. induction 1 as [|l ls Hl _ IH]; cbn; [constructor|]. destruct (String.eqb _ _); auto. Qed.

  Lemma plain_file ls keys cfg ss f' :
    let us := units [] (runs [] (before_eof (map trim_space ls))) in
    Forall (fun u => snd u = [] /\ clear [TLit (fst u)] /\ ~ occurs "/*!" (fst u)) us ->
    load_file T name ls keys cfg = Some (ss, f') -> map p_query ss = map fst us.
  Proof.
    intros us U H. apply load_file_units in H as (_ & P & _). eapply parsed_plain; [|exact P].
    assert (M : Forall (fun u => no_margin (fst u)) us).
    { apply units_margin, runs_lines; [|constructor]. apply before_eof_all. rewrite Forall_forall. intros x Hx.
      apply in_map_iff in Hx as (y & <- & _). apply trim_space_margin. }
    rewrite Forall_forall in *. intros u Hu. destruct (U u Hu) as (A & B & C). specialize (M u Hu).
    split; [auto|]. split; [split; auto|auto].
  Qed.
End plain.

(** ** Negative copies *)
Lemma neg_copies T name q pre post f ds n : decimal ds n -> (1 <= n)%N ->
  Forall (fun m => ~ occurs "copies" m) pre ->
  statements T name q (pre ++ ("copies: -" ++ ds)%string :: post)%list f = None.
Proof.
  intros D N NC. unfold statements. rewrite modifiers_app.
  pose proof (modifiers_frame T name pre (new_stmt name (trim_space q)) (see_ddl (new_stmt name (trim_space q)) f) NC) as MF.
  destruct (modifiers T name pre _ _) as [[s1 f1|]|]; [|easy|reflexivity].
  replace (modifiers T name _ s1 f1) with (@None (mres)); [reflexivity|]. cbn [modifiers].
  unfold modifier. pose proof (decimal_digits _ _ D) as DD. pose proof (decimal_value _ _ D) as DV.
  assert (F : fields ("copies: -" ++ ds) = ["copies:"; "-" ++ ds]).
  { transitivity ("copies:" :: fields_from "-" ds); [reflexivity|]. f_equal. rewrite fields_from_word; [reflexivity| |discriminate].
    eapply every_impl; [|exact DD]. apply digit_not_ws. }
  rewrite F. cbn. unfold atoi. cbn. destruct ds as [|c ds]; [reflexivity|]. rewrite DV.
  destruct (n <=? _)%N; [|reflexivity]. cbn. destruct (- Z.of_N n <? 0)%Z eqn:Z; [reflexivity|]. apply Z.ltb_ge in Z. lia.
Qed.

(** ** Checkers, to show that examples meet the hypotheses *)
Definition startsb (p : ascii -> bool) (s : string) : bool := match s with "" => false | String c _ => p c end.
Fixpoint no_keyb (s rest : string) : bool :=
  match s with
  | "" => true
  | String c s' => negb (Ascii.eqb c "@" && startsb key_char (s' ++ rest)) && no_keyb s' rest
  end%bool.
Fixpoint everyb (p : ascii -> bool) (s : string) : bool := match s with "" => true | String c s' => p c && everyb p s' end%bool.
Fixpoint clearb (l : list tok) : bool :=
  match l with
  | [] => true
  | t :: l' =>
      match t with
      | TLit s => no_keyb s (sql l')
      | TKey n call =>
          negb (String.eqb n "") && everyb key_char n &&
          (call || (negb (startsb key_char (sql l')) && negb (has_prefix "()" (sql l'))))
      end && clearb l'
  end%bool.
Lemma everyb_spec p P s : (forall c, p c = true <-> P c) -> everyb p s = true <-> every P s.
Proof. intros E. induction s as [|c s IH]; cbn; [tauto|]. now rewrite andb_true_iff, IH, E. Qed.
Lemma startsb_spec p P s : (forall c, p c = true <-> P c) -> startsb p s = true <-> starts P s.
Proof. intros E. destruct s; cbn; [easy|apply E]. Qed.
Lemma key_char_name c : key_char c = true <-> name_char c.
Proof. unfold key_char, name_char. rewrite orb_true_iff, is_word_spec, Ascii.eqb_eq. unfold word_char. tauto. Qed.
Lemma no_keyb_spec s rest : no_keyb s rest = true -> no_key s rest.
Proof.
  induction s as [|c s IH]; cbn; [auto|]. rewrite andb_true_iff, negb_true_iff. intros [A B]. split; [|auto].
  intros [-> X]. cbn in A. rewrite <- (startsb_spec key_char) in X by apply key_char_name. cbn in X. congruence.
Qed.
Lemma clearb_spec l : clearb l = true -> clear l.
Proof.
  induction l as [|t l IH]; cbn; [auto|]. rewrite andb_true_iff. intros [A B]. split; [|auto]. destruct t as [s|n call].
  - now apply no_keyb_spec.
  - rewrite !andb_true_iff, orb_true_iff, andb_true_iff, !negb_true_iff in A. destruct A as [[A1 A2] A3].
    split; [now apply String.eqb_neq in A1|]. split; [eapply everyb_spec; [apply key_char_name|exact A2]|].
    intros ->. destruct A3 as [A3|[A3 A4]]; [discriminate|]. split.
    + intros X. rewrite <- (startsb_spec key_char) in X by apply key_char_name. congruence.
    + intros r X. assert (has_prefix "()" (sql l) = true) by (apply has_prefix_spec; now exists r). congruence.
Qed.
Definition prefix_freeb (ks : list string) : bool :=
  forallb (fun a => forallb (fun b => negb (has_prefix a b) || String.eqb a b)%bool ks) ks.
Lemma prefix_freeb_spec ks : prefix_freeb ks = true -> keys_prefix_free ks.
Proof.
  unfold prefix_freeb. rewrite forallb_forall. intros H a b t Ha Hb ->. specialize (H a Ha). rewrite forallb_forall in H.
  specialize (H _ Hb). rewrite orb_true_iff, negb_true_iff, String.eqb_eq in H. destruct H as [H|H].
  - assert (has_prefix a (a ++ t) = true) by (apply has_prefix_spec; eauto). congruence.
  - rewrite <- (sapp_nil a) in H at 1. apply sapp_inj_l in H. auto.
Qed.
Lemma no_margin_check s : String.eqb (trim_space s) s = true -> no_margin s.
Proof. intros E. apply String.eqb_eq in E. rewrite <- E. apply trim_space_margin. Qed.
Lemma no_occurs_check a s : contains a s = false -> ~ occurs a s.
Proof. intros E H. apply contains_spec in H. congruence. Qed.
Lemma no_percent_check s : everyb (fun c => negb (Ascii.eqb c "%")) s = true -> no_percent s.
Proof.
  apply everyb_spec. intros c. rewrite negb_true_iff. split.
  - intros E ->. discriminate.
  - intros E. now apply Ascii.eqb_neq.
Qed.
