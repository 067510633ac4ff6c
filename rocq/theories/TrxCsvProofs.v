(** Proofs about statements with data keys and CSV substitutions. *)
From Coq Require Import Permutation.
From Verif Require Import Prelude ConfigModel ConfigSpec ConfigVarsProofs ConfigProofs TrxModel TrxSpec TrxKeyProofs
  TrxRowProofs TrxProofs TrxStmtProofs.
#[local] Open Scope list_scope.
#[local] Open Scope string_scope.

(** ** Changing what follows *)
Definition agree (s t : string) : Prop :=
  hd_char s = hd_char t /\ ((exists r, s = "()" ++ r) <-> (exists r, t = "()" ++ r)).
Lemma agree_refl s : agree s s. Proof. split; [auto|tauto]. Qed.
Lemma agree_char c s t : agree s t -> agree (String c s) (String c t).
Proof.
  intros [H _]. split; [reflexivity|].
  assert (G : forall s t, hd_char s = hd_char t -> (exists r, String c s = "()" ++ r) -> exists r, String c t = "()" ++ r).
  { clear. intros s t H [r E]. cbn in E. injection E as -> ->. destruct t as [|d t]; [discriminate|].
    cbn in H. injection H as <-. now exists t. }
  split; apply G; auto.
Qed.
Lemma agree_app x s t : agree s t -> agree (x ++ s) (x ++ t).
Proof. intros H. induction x as [|c x IH]; auto. cbn [append]. now apply agree_char. Qed.

Lemma sql_app a b : sql (a ++ b)%list = sql a ++ sql b.
Proof. induction a as [|t a IH]; cbn [sql app]; auto. now rewrite IH, sapp_assoc. Qed.
Lemma key_names_app a b : key_names (a ++ b)%list = (key_names a ++ key_names b)%list.
Proof. induction a as [|[s|n c] a IH]; cbn [key_names app]; auto. now rewrite IH. Qed.
Lemma key_calls_app a b : key_calls (a ++ b)%list = (key_calls a ++ key_calls b)%list.
Proof. induction a as [|[s|n c] a IH]; cbn [key_calls app]; auto. now rewrite IH. Qed.

Lemma clear_tail a b : clear (a ++ b)%list -> clear b.
Proof. induction a as [|t a IH]; cbn [app clear]; auto. tauto. Qed.
Lemma clear_swap a b b' : agree (sql b) (sql b') -> clear (a ++ b)%list -> clear b' -> clear (a ++ b')%list.
Proof.
  intros A H Hb. induction a as [|t a IH]; [exact Hb|]. cbn [app clear] in *. destruct H as [H1 H2].
  split; [|auto]. pose proof (agree_app (sql a) _ _ A) as G. rewrite <- !sql_app in G. destruct G as [G1 G2].
  destruct t as [s|n c].
  - eapply no_key_hd; eauto.
  - destruct H1 as (X & Y & Z). split; [auto|]. split; [auto|]. intros E. destruct (Z E) as [Z1 Z2]. split.
    + intros W. apply Z1. revert W. now apply starts_hd.
    + intros r W. destruct (proj2 G2) as [r' W']; [eauto|]. now apply Z2 in W'.
Qed.

(** ** Rows *)
Lemma sql_rows n row : sql (rows n row) = join_comma (repeat (sql row) n).
Proof.
  induction n as [|n IH]; [reflexivity|]. destruct n as [|n]; [reflexivity|].
  change (rows (S (S n)) row) with (row ++ TLit ", " :: rows (S n) row)%list.
  change (join_comma (repeat (sql row) (S (S n)))) with (sql row ++ ", " ++ join_comma (repeat (sql row) (S n))).
  rewrite sql_app. cbn [sql tok_text]. now rewrite IH.
Qed.

Lemma call_first_app k a b : In k (key_names a) -> call_first k (a ++ b)%list = (call_first k a ++ b)%list.
Proof.
  induction a as [|[s|n c] a IH]; cbn [key_names app call_first In]; [easy|intros H; now rewrite IH|].
  intros [H|H].
  - rewrite H, String.eqb_refl. reflexivity.
  - destruct (String.eqb _ _); [reflexivity|]. cbn [app]. now rewrite IH.
Qed.
Lemma calls_first_app ks a b : (forall k, In k ks -> In k (key_names a)) ->
  calls_first ks (a ++ b)%list = (calls_first ks a ++ b)%list.
Proof.
  revert a; induction ks as [|k ks IH]; intros a H; [reflexivity|]. cbn [calls_first fold_left].
  rewrite call_first_app by (apply H; now left). apply IH. intros x Hx. rewrite key_names_call_first. apply H. now right.
Qed.
Lemma calls_first_cons ks s a : calls_first ks (TLit s :: a) = TLit s :: calls_first ks a.
Proof. revert a; induction ks as [|k ks IH]; intros a; [reflexivity|]. cbn [calls_first fold_left call_first]. apply IH. Qed.
Lemma key_names_calls ks a : key_names (calls_first ks a) = key_names a.
Proof. revert a; induction ks as [|k ks IH]; intros a; [reflexivity|]. cbn [calls_first fold_left]. unfold calls_first in IH. rewrite IH. apply key_names_call_first. Qed.

Lemma hd_same a a' x y z : Forall2 same_key a a' ->
  hd_char (sql (a ++ TLit (String x "") :: y)%list) = hd_char (sql (a' ++ TLit (String x "") :: z)%list).
Proof.
  induction 1 as [|t t' a a' H F IH]; [reflexivity|]. cbn [app]. apply hd_tok; auto.
  destruct t, t'; cbn in H; auto.
Qed.

Lemma clear_rows n r0 la : clear (TLit "(" :: r0 ++ TLit ")" :: la)%list -> (1 <= n)%nat ->
  clear (rows n (TLit "(" :: r0 ++ [TLit ")"]) ++ la)%list.
Proof.
  intros H. set (row := (TLit "(" :: r0 ++ [TLit ")"])%list).
  assert (W : forall X, clear X -> clear (row ++ X)%list).
  { intros X HX. unfold row. cbn [app]. rewrite <- app_assoc. cbn [app].
    change (clear ((TLit "(" :: r0) ++ TLit ")" :: X)%list).
    apply clear_swap with (TLit ")" :: la).
    - split; [reflexivity|]. split; intros [r E]; discriminate.
    - exact H.
    - cbn [clear no_key]. split; [|auto]. split; [intros [E _]; discriminate|auto]. }
  assert (L : clear la).
  { apply (clear_tail ((TLit "(" :: r0) ++ [TLit ")"])%list). rewrite <- app_assoc. exact H. }
  intros Hn. induction n as [|n IH]; [lia|]. destruct n as [|n]; [now apply W|].
  change (rows (S (S n)) row) with (row ++ TLit ", " :: rows (S n) row)%list. rewrite <- app_assoc. cbn [app]. apply W. cbn [clear no_key]. split; [|apply IH; lia].
  split; [intros [E _]; discriminate|]. split; [intros [E _]; discriminate|auto].
Qed.

Lemma clear_expand lb r0 la n ks : (1 <= n)%nat ->
  clear (lb ++ (TLit "(" :: r0 ++ [TLit ")"]) ++ la)%list ->
  (forall k, In k ks -> In k (key_names r0)) ->
  clear (lb ++ rows n (calls_first ks (TLit "(" :: r0 ++ [TLit ")"])) ++ la)%list.
Proof.
  intros Hn H Hk.
  rewrite calls_first_cons, calls_first_app by auto.
  set (r1 := calls_first ks r0).
  assert (C : clear (TLit "(" :: r1 ++ TLit ")" :: la)%list).
  { pose proof (clear_tail _ _ H) as C. cbn [app] in C. rewrite <- app_assoc in C. cbn [app] in C.
    unfold r1. rewrite <- calls_first_app by auto. rewrite <- calls_first_cons. now apply clear_calls. }
  eapply clear_swap; [|exact H|now apply clear_rows].
  cbn [app sql]. replace (rows n (TLit "(" :: r1 ++ [TLit ")"]) ++ la)%list
    with (TLit "(" :: r1 ++ TLit ")" :: (match n with S (S m) => TLit ", " :: rows (S m) (TLit "(" :: r1 ++ [TLit ")"]) ++ la | _ => la end))%list.
  - cbn [sql tok_text]. 
    assert (E : hd_char (sql ((r0 ++ [TLit ")"]) ++ la)%list) =
      hd_char (sql (r1 ++ TLit ")" :: (match n with S (S m) => TLit ", " :: rows (S m) (TLit "(" :: r1 ++ [TLit ")"]) ++ la | _ => la end))%list)).
    { rewrite <- app_assoc. cbn [app]. apply hd_same. apply same_key_calls. }
    revert E. generalize (sql ((r0 ++ [TLit ")"]) ++ la)%list). intros s.
    generalize (sql (r1 ++ TLit ")" :: (match n with S (S m) => TLit ", " :: rows (S m) (TLit "(" :: r1 ++ [TLit ")"]) ++ la | _ => la end))%list). intros t E.
    split; [reflexivity|].
    split; intros [r X]; cbn in X; injection X as ->; cbn in E.
    + destruct t as [|d t]; [discriminate|]. injection E as <-. now exists t.
    + destruct s as [|d s]; [discriminate|]. injection E as ->. now exists s.
  - destruct n as [|[|n]]; [lia| |]; cbn [rows app]; rewrite <- !app_assoc; reflexivity.
Qed.

(** ** Statements *)
Lemma decimal_value s n : decimal s n -> digits_value 0 s = Some n.
Proof.
  intros H. enough (G : forall t, digits_value 0 (s ++ t) = digits_value n t).
  { specialize (G ""). now rewrite sapp_nil in G. }
  induction H as [d Hd|s n d H IH Hd]; intros t.
  - cbn [append digits_value]. apply is_digit_digit in Hd. now rewrite Hd.
  - rewrite sapp_assoc, IH. cbn [append digits_value]. apply is_digit_digit in Hd. now rewrite Hd.
Qed.

Lemma key_fmt_placeholder pr f k : key_fmt pr f k = placeholder pr f k.
Proof. reflexivity. Qed.

Section file.
  Context (T : tenv) (name : string).
  Hypothesis ORDER : forall ks, Permutation (te_order T ks) ks.
  Hypothesis ROW_ORDER : forall ks, Permutation (te_row_order T ks) ks.

  Lemma multi_fields s s1 : multi_of s s1 -> p_query s = p_query s1 /\ p_inputs s = p_inputs s1 /\
    p_calls s = p_calls s1 /\ p_prepare s = p_prepare s1.
  Proof. intros [->|[m ->]]; cbn; auto. Qed.

  (** A statement whose text, after the substitutions, is the tokens [l]. *)
  Lemma stmt_placeholders str mods f ss f' s l :
    (forall cn s0 f0 s1 f1, finish T name cn (trim_space str) s0 f0 = Some (s1, f1) -> data_same f f0 ->
       exists f2, bind_stmt T name (sql l) s0 f2 = Some (s1, f1)) ->
    clear l -> keys_prefix_free (key_names l) ->
    statements T name str mods f = Some (ss, f') -> In s ss ->
    sget "@PREV" (f_keys f') = None ->
    (forall a b, In a (prevs "" l) -> In b (prevs "" l) -> placeholder (p_prepare s) f' a = placeholder (p_prepare s) f' b) ->
    p_query s = filled (placeholder (p_prepare s) f') "" l /\ p_inputs s = key_names l /\ p_calls s = key_calls l.
  Proof.
    intros HF Cl PF H Hs NP AG. apply statements_spec in H as (_ & _ & _ & _ & _ & S).
    destruct (S s Hs) as (cn & s0 & f0 & s1 & f1 & F & LE & DS & PR & MU).
    destruct (multi_fields _ _ MU) as (-> & -> & -> & E). rewrite E in *. rewrite PR in *.
    destruct (HF _ _ _ _ _ F DS) as [f2 B].
    pose proof (bind_inv _ _ _ _ _ _ _ Cl B) as (q & Es & _). split; [|rewrite Es; cbn; auto].
    eapply bind_query; eauto.
  Qed.

  Lemma plain_placeholders w l mods f ss f' s :
    clear l -> keys_prefix_free (key_names l) -> no_margin (sql l) -> every ws w -> ~ occurs "/*!" (sql l) ->
    statements T name (sql l ++ w) mods f = Some (ss, f') -> In s ss ->
    sget "@PREV" (f_keys f') = None ->
    (forall a b, In a (prevs "" l) -> In b (prevs "" l) -> placeholder (p_prepare s) f' a = placeholder (p_prepare s) f' b) ->
    p_query s = filled (placeholder (p_prepare s) f') "" l /\ p_inputs s = key_names l /\ p_calls s = key_calls l.
  Proof.
    intros Cl PF NM W NC. apply stmt_placeholders; auto.
    intros cn s0 f0 s1 f1 F _. rewrite trim_space_pad in F by auto. rewrite finish_bind in F.
    rewrite replace_copy_none in F.
    - unfold expand_csv in F. rewrite find_csv_none in F; [eauto|].
      intros X. apply NC. eapply occurs_le; [|exact X]. now exists "", "csv".
    - intros X. apply NC. eapply occurs_le; [|exact X]. now exists "", "copy-number*/".
  Qed.

  Lemma row_scope_called ks row : NoDup ks -> Forall key_shape ks -> clear row -> keys_prefix_free (ks ++ key_names row)%list ->
    forall scoped : string -> Prop, (forall n, In ("@" ++ n) (key_names row) -> (In ("@" ++ n) ks <-> scoped n)) ->
    row_called scoped row (calls_first ks row).
  Proof.
    intros ND SH Cl PF scoped SC.
    assert (SK := same_key_calls ks row).
    assert (IN : forall i n c, nth_error row i = Some (TKey n c) -> In ("@" ++ n) (key_names row)).
    { clear. induction row as [|[s|m b] row IH]; intros [|i] n c H; cbn [key_names nth_error] in *; try discriminate; eauto.
      - injection H as -> ->. now left.
      - right. eauto. }
    split; [clear -SK; induction SK; cbn; auto|]. split; [|split].
    - intros i s H. clear -SK H. revert i H. induction SK as [|a b l l' Hab S IH]; intros [|i] H; cbn in *; try discriminate; auto.
      injection H as ->. destruct b; cbn in Hab; [congruence|easy].
    - intros i n c H F S. apply (calls_first_nth ks SH row i n c H). split; auto. apply SC; eauto.
    - intros i n c H F. apply (calls_first_nth ks SH row i n c H). intros [A B]. apply F. split; auto. apply SC; eauto.
  Qed.

  Lemma prevs_same a b : Forall2 same_key a b -> forall last, prevs last a = prevs last b.
  Proof.
    induction 1 as [|x y a b H F IH]; intros last; [reflexivity|].
    destruct x as [s|n c], y as [s'|n' c']; cbn in H; try easy; cbn [prevs]; [apply IH|]. subst n'. destruct (String.eqb n "PREV"); [f_equal|]; apply IH.
  Qed.
  Lemma same_key_app a b a' b' : Forall2 same_key a a' -> Forall2 same_key b b' -> Forall2 same_key (a ++ b)%list (a' ++ b')%list.
  Proof. apply Forall2_app. Qed.
  Lemma same_key_refl a : Forall2 same_key a a.
  Proof. induction a as [|[] a IH]; constructor; cbn; auto. Qed.
  Lemma same_key_rows n a b : Forall2 same_key a b -> Forall2 same_key (rows n a) (rows n b).
  Proof.
    intros H. induction n as [|n IH]; [constructor|]. destruct n as [|n]; [exact H|]. cbn [rows]. apply Forall2_app; [auto|].
    constructor; [reflexivity|exact IH].
  Qed.
  Lemma same_key_names a b : Forall2 same_key a b -> key_names a = key_names b.
  Proof.
    induction 1 as [|x y a b H F IH]; [reflexivity|].
    destruct x as [s|n c], y as [s'|n' c']; cbn in H; try easy; cbn [key_names]; congruence.
  Qed.

  Lemma in_rows n row k : In k (key_names (rows n row)) -> In k (key_names row).
  Proof.
    induction n as [|n IH]; [easy|]. destruct n as [|n]; [auto|]. change (rows (S (S n)) row) with (row ++ TLit ", " :: rows (S n) row)%list. rewrite key_names_app. cbn [key_names].
    rewrite in_app_iff. intros [H|H]; auto.
  Qed.

  Lemma csv_statement w ds n lb r0 la mods f ss f' s :
    let row := (TLit "(" :: r0 ++ [TLit ")"])%list in
    let text := sql lb ++ "/*!csv " ++ ds ++ " " ++ sql row ++ "*/" ++ sql la in
    decimal ds n -> (1 <= n)%N ->
    clear (lb ++ row ++ la)%list -> keys_prefix_free (key_names (lb ++ row ++ la)%list) ->
    no_margin text -> every ws w -> ~ occurs "/*!csv" (sql lb) -> ~ occurs "*/" (sql la) -> ~ occurs copy_number text ->
    statements T name (text ++ w) mods f = Some (ss, f') -> In s ss ->
    sget "@PREV" (f_keys f') = None ->
    (forall a b, In a (prevs "" (lb ++ rows (N.to_nat n) row ++ la)%list) -> In b (prevs "" (lb ++ rows (N.to_nat n) row ++ la)%list) ->
       placeholder (p_prepare s) f' a = placeholder (p_prepare s) f' b) ->
    exists row', row_called (row_scoped f) row row' /\
      let l := (lb ++ rows (N.to_nat n) row' ++ la)%list in
      p_query s = filled (placeholder (p_prepare s) f') "" l /\ p_inputs s = key_names l /\ p_calls s = key_calls l.
  Proof.
    intros row text DEC Hn Cl PF NM W NB NA NCN H Hs NP AG.
    assert (Hn' : (1 <= N.to_nat n)%nat) by lia.
    pose proof DEC as DD. apply decimal_digits in DD. pose proof (decimal_value _ _ DEC) as DV.
    assert (Hds : ds <> "") by (intros ->; inversion DEC as [|? ? ? ? ? E]; destruct s0; discriminate).
    assert (Crow : clear row).
    { apply clear_tail in Cl. unfold row in *. cbn [app] in Cl. rewrite <- app_assoc in Cl. cbn [app] in Cl.
      change (clear ((TLit "(" :: r0) ++ [TLit ")"])%list). apply clear_swap with (TLit ")" :: la); auto.
      - split; [reflexivity|]. split; intros [r E]; discriminate.
      - cbn [clear no_key]. split; [|auto]. split; [intros [E _]; discriminate|auto]. }
    assert (NMR : no_margin (sql row)).
    { unfold row. split.
      - cbn. intros [E|[E|[E|[E|[E|[E|[]]]]]]]; discriminate.
      - intros a c E. cbn [sql] in E. rewrite sql_app in E. cbn [sql tok_text] in E.
        assert (X : c = ")"%char).
        { clear -E. cbn [append] in E. change (String "(" (sql r0 ++ ")")) with (("(" ++ sql r0) ++ ")") in E.
          revert E. generalize ("(" ++ sql r0). intros x. revert a. induction x as [|y x IH]; intros [|z a]; cbn; intros E.
          - congruence.
          - injection E as _ E. destruct a; discriminate.
          - injection E as _ E. destruct x; discriminate.
          - injection E as _ E. eauto. }
        subst c. cbn. intros [Y|[Y|[Y|[Y|[Y|[Y|[]]]]]]]; discriminate. }
    assert (ROWKEYS : key_names row = key_names r0).
    { unfold row. cbn [key_names]. rewrite key_names_app. cbn. now rewrite app_nil_r. }
    (* one finished statement *)
    apply statements_spec in H as (_ & _ & _ & _ & _ & S).
    destruct (S s Hs) as (cn & s0 & f0 & s1 & f1 & F & LE & DS & PR & MU).
    destruct (multi_fields _ _ MU) as (-> & -> & -> & E). rewrite E in *. rewrite PR in *.
    rewrite trim_space_pad in F by auto. rewrite finish_bind in F.
    rewrite replace_copy_none in F by auto. unfold expand_csv in F.
    replace (find_csv text) with (Some (sql lb, ds, sql row, sql la)) in F.
    2:{ unfold text. rewrite find_csv_skip; [|auto|exists (" " ++ ds ++ " " ++ sql row ++ "*/" ++ sql la); reflexivity].
        rewrite find_csv_text; auto; [now rewrite sapp_nil|unfold row; discriminate]. }
    rewrite DV in F. destruct (n <? 2 ^ 31)%N; [|discriminate]. rewrite trim_space_id in F by auto.
    rewrite find_keys_sql in F by auto.
    destruct (csv_keys (key_texts row) (f_data f0) []) as [[ks data']|] eqn:CK; [|discriminate].
    cbn [fst snd] in F. apply csv_keys_spec in CK as (K1 & K2 & _); auto. specialize (K2 (NoDup_nil _)).
    assert (KP : forall k, In k (te_row_order T ks) <-> In k ks).
    { intros k. split; apply Permutation_in; [|apply Permutation_sym]; auto. }
    assert (KN : forall k, In k (te_row_order T ks) -> In k (key_names row)).
    { intros k Hk. apply KP, K1 in Hk as [[]|(m & _ & Hk & _)]. auto. }
    assert (ND : NoDup (te_row_order T ks)) by (eapply Permutation_NoDup; [apply Permutation_sym; auto|auto]).
    assert (SH : Forall key_shape (te_row_order T ks)).
    { apply Forall_forall. intros k Hk. apply clear_shape with row; auto. }
    assert (PFR : keys_prefix_free (te_row_order T ks ++ key_names row)%list).
    { intros a b t Ha Hb. apply PF; rewrite !key_names_app, !in_app_iff.
      - apply in_app_or in Ha as [Ha|Ha]; auto.
      - apply in_app_or in Hb as [Hb|Hb]; auto. }
    rewrite row_scope_sql in F by auto. rewrite <- sql_rows, <- !sql_app in F.
    set (row' := calls_first (te_row_order T ks) row) in *.
    exists row'. split.
    { apply row_scope_called; auto. intros m Hm. rewrite KP, K1. split.
      - intros [[]|(m' & Em & _ & R)]. cbn in Em. injection Em as <-.
        apply DS in R; auto. intros r ->. apply clear_shape in Hm as (z & Ez & _ & Hz); auto. cbn in Ez. injection Ez as <-.
        destruct Hz as [Hz _]. now apply name_char_at in Hz.
      - intros R. right. exists m. split; [auto|]. split; [auto|]. apply DS; auto. intros r ->.
        apply clear_shape in Hm as (z & Ez & _ & Hz); auto. cbn in Ez. injection Ez as <-.
        destruct Hz as [Hz _]. now apply name_char_at in Hz. }
    cbv zeta. set (l := (lb ++ rows (N.to_nat n) row' ++ la)%list) in *.
    assert (SKR : Forall2 same_key row row') by apply same_key_calls.
    assert (SK : Forall2 same_key (lb ++ rows (N.to_nat n) row ++ la)%list l).
    { apply Forall2_app; [apply same_key_refl|]. apply Forall2_app; [now apply same_key_rows|apply same_key_refl]. }
    assert (CL : clear l).
    { unfold l, row', row. apply clear_expand; auto. intros k Hk. apply KN in Hk. now rewrite ROWKEYS in Hk. }
    assert (PFL : keys_prefix_free (key_names l)).
    { rewrite <- (same_key_names _ _ SK). intros a b t Ha Hb. apply PF.
      - rewrite !key_names_app, !in_app_iff in *. destruct Ha as [?|[Ha|?]]; auto. right. left. now apply in_rows in Ha.
      - rewrite !key_names_app, !in_app_iff in *. destruct Hb as [?|[Hb|?]]; auto. right. left. now apply in_rows in Hb. }
    rewrite (prevs_same _ _ SK) in AG.
    pose proof (bind_inv _ _ _ _ _ _ _ CL F) as (q & Es & _). split; [|rewrite Es; cbn; auto].
    eapply bind_query; eauto.
  Qed.
End file.
