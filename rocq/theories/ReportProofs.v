(** Proofs about reports. *)
From Verif Require Import Prelude ConfigModel ConfigSpec ConfigVarsProofs TrxModel TrxSpec TrxProofs GenModel ClientModel StatsModel ReportModel ReportSpec.
#[local] Open Scope list_scope.
#[local] Open Scope string_scope.

Lemma str_app_assoc a b c : (a ++ b) ++ c = a ++ (b ++ c).
Proof. induction a; cbn; congruence. Qed.
Lemma str_app_nil a : a ++ "" = a.
Proof. induction a; cbn; congruence. Qed.

Lemma lacks_nil c : lacks c "".
Proof. intros []. Qed.
Lemma lacks_cons c d s : d <> c -> lacks c s -> lacks c (String d s).
Proof. intros H1 H2 [E|E]; auto. Qed.
Lemma lacks_inv c d s : lacks c (String d s) -> d <> c /\ lacks c s.
Proof. intros H. split; [intros E; apply H; left; auto|intros E; apply H; right; auto]. Qed.
Lemma lacks_app c a b : lacks c a -> lacks c b -> lacks c (a ++ b).
Proof.
  induction a as [|d a IH]; cbn [append]; auto. intros H1 H2. apply lacks_inv in H1 as [H H1].
  apply lacks_cons; auto.
Qed.
Lemma lacks_join c sep l : lacks c sep -> Forall (lacks c) l -> lacks c (join sep l).
Proof.
  intros Hs H. induction H as [|s l H1 H2 IH]; [apply lacks_nil|]. destruct l as [|s' l]; [exact H1|].
  cbn [join] in *. apply lacks_app; auto. apply lacks_app; auto.
Qed.

(** ** Splitting *)
Lemma split_on_nonempty c s : split_on c s <> [].
Proof. destruct s as [|d s]; cbn; [discriminate|]. destruct (Ascii.eqb d c); [discriminate|]. destruct (split_on c s); discriminate. Qed.
Lemma split_on_lacks c a : lacks c a -> split_on c a = [a].
Proof.
  induction a as [|d a IH]; cbn; auto. intros H. apply lacks_inv in H as [H1 H2]. rewrite IH by auto.
  destruct (Ascii.eqb_spec d c); congruence.
Qed.
Lemma split_on_app c a s : lacks c a -> split_on c (a ++ String c s) = a :: split_on c s.
Proof.
  induction a as [|d a IH]; cbn [append split_on]; intros H.
  - now rewrite Ascii.eqb_refl.
  - apply lacks_inv in H as [H1 H2]. rewrite IH by auto. destruct (Ascii.eqb_spec d c); congruence.
Qed.
Lemma split_on_join c l s : l <> [] -> Forall (lacks c) l ->
  split_on c (join (String c "") l ++ String c s) = (l ++ split_on c s)%list.
Proof.
  induction l as [|w l IH]; intros NE H; [congruence|]. inversion H; subst. destruct l as [|w' l].
  - cbn [join app]. now apply split_on_app.
  - change (join (String c "") (w :: w' :: l)) with (w ++ (String c "" ++ join (String c "") (w' :: l))).
    rewrite str_app_assoc. change ((String c "" ++ join (String c "") (w' :: l)) ++ String c s) with (String c (join (String c "") (w' :: l) ++ String c s)).
    rewrite split_on_app by auto. rewrite IH; [reflexivity|discriminate|auto].
Qed.

(** ** Replacing P *)
Lemma rep_app v a s : lacks "P" a -> replace_first "P" v (a ++ s) = a ++ replace_first "P" v s.
Proof.
  induction a as [|d a IH]; cbn [append]; auto. intros H. apply lacks_inv in H as [H1 H2].
  cbn [replace_first strip_prefix]. rewrite IH by auto. destruct (ascii_dec "P" d); [congruence|]. 
  destruct (Ascii.eqb_spec "P" d); congruence.
Qed.
Lemma rep_cons v c s : c <> "P"%char -> replace_first "P" v (String c s) = String c (replace_first "P" v s).
Proof. intros H. exact (rep_app v (String c "") s (lacks_cons _ _ _ H (lacks_nil _))). Qed.
Lemma rep_P v s : replace_first "P" v (String "P" s) = v ++ s.
Proof. reflexivity. Qed.

(** ** Numbers *)
Lemma digits_lack c s : (N_of_ascii c < 48 \/ 57 < N_of_ascii c)%N -> ConfigSpec.digits s -> lacks c s.
Proof.
  intros Hc. induction s as [|d s IH]; [intros _; apply lacks_nil|]. intros [H1 H2]. apply lacks_cons; auto.
  intros ->. unfold ConfigSpec.digit, nat_of_ascii in H1. lia.
Qed.
Lemma uint_lacks c n : (N_of_ascii c < 48 \/ 57 < N_of_ascii c)%N -> lacks c (format_uint n).
Proof. intros H. apply digits_lack; auto. apply ConfigVarsProofs.format_uint_digits. Qed.
Lemma int_lacks c z : (N_of_ascii c < 45 \/ 57 < N_of_ascii c)%N -> lacks c (format_int z).
Proof.
  intros H. unfold format_int. destruct z; try (apply uint_lacks; lia).
  apply lacks_cons; [|apply uint_lacks; lia]. intros <-. change (N_of_ascii "-") with 45%N in H. lia.
Qed.

(** ** Lines *)
Section Line.
  Variable c : ascii.
  Hypothesis HP : c <> "P"%char.
  Definition ok (s : string) : Prop := lacks c s /\ lacks "P" s.
  Variables a1 a2 a3 a4 b1 b2 b3 c1 c2 c3 d1 d2 d3 e1 e2 e3 er host : string.
  Variables p1 p2 p3 p4 : list string.
  Definition raw : string :=
    a1 ++ String c (a2 ++ String c (a3 ++ String c (a4 ++
    String c (b1 ++ String c (b2 ++ String c (String "P" (String c (b3 ++
    String c (c1 ++ String c (c2 ++ String c (String "P" (String c (c3 ++
    String c (d1 ++ String c (d2 ++ String c (String "P" (String c (d3 ++
    String c (e1 ++ String c (e2 ++ String c (String "P" (String c (e3 ++
    String c (er ++ String c (host ++ ""))))))))))))))))))))))))).
  Definition filled : string :=
    let j := join (String c "") in
    a1 ++ String c (a2 ++ String c (a3 ++ String c (a4 ++
    String c (b1 ++ String c (b2 ++ String c (j p1 ++ String c (b3 ++
    String c (c1 ++ String c (c2 ++ String c (j p2 ++ String c (c3 ++
    String c (d1 ++ String c (d2 ++ String c (j p3 ++ String c (d3 ++
    String c (e1 ++ String c (e2 ++ String c (j p4 ++ String c (e3 ++
    String c (er ++ String c host)))))))))))))))))))).
  Hypothesis Ha : Forall ok [a1; a2; a3; a4; b1; b2; b3; c1; c2; c3; d1; d2; d3; e1; e2; e3; er].
  Hypothesis Hp : Forall ok (p1 ++ p2 ++ p3 ++ p4)%list.
  Hypothesis Hh : lacks c host.
  Hypothesis NE : p1 <> [] /\ p2 <> [] /\ p3 <> [] /\ p4 <> [].

  Lemma raw_filled : replace_first "P" (join (String c "") p4) (replace_first "P" (join (String c "") p3)
    (replace_first "P" (join (String c "") p2) (replace_first "P" (join (String c "") p1) raw))) = filled.
  Proof using HP Ha Hp.
    clear NE Hh.
    assert (J : forall p, Forall ok p -> lacks "P" (join (String c "") p)).
    { intros p H. apply lacks_join; [apply lacks_cons; [auto|apply lacks_nil]|]. eapply Forall_impl; [|exact H]. intros s [_ X]; auto. }
    rewrite !Forall_app in Hp. destruct Hp as [Q1 [Q2 [Q3 Q4]]]. apply J in Q1, Q2, Q3, Q4.
    rewrite Forall_forall in Ha. 
    unfold raw, filled.
    repeat match goal with
      | |- context [replace_first "P" ?v (String "P" ?s)] => rewrite (rep_P v s)
      | |- context [replace_first "P" ?v (String c ?s)] => rewrite (rep_cons v c s HP)
      | |- context [replace_first "P" ?v (?a ++ ?s)] => rewrite (rep_app v a s) by (auto; apply Ha; cbn [In]; tauto)
      end.
    rewrite str_app_nil. reflexivity.
  Qed.

  Lemma filled_split : split_on c filled =
    ([a1; a2; a3; a4; b1; b2] ++ p1 ++ [b3; c1; c2] ++ p2 ++ [c3; d1; d2] ++ p3 ++ [d3; e1; e2] ++ p4 ++ [e3; er; host])%list.
  Proof.
    rewrite !Forall_app in Hp. destruct Hp as [Q1 [Q2 [Q3 Q4]]]. destruct NE as [N1 [N2 [N3 N4]]].
    assert (K : forall p, Forall ok p -> Forall (lacks c) p) by (intros p H; eapply Forall_impl; [|exact H]; intros s [X _]; auto).
    apply K in Q1, Q2, Q3, Q4.
    rewrite Forall_forall in Ha. unfold filled. cbv zeta.
    repeat (first [rewrite split_on_join by auto | rewrite split_on_app by (apply Ha; cbn [In]; tauto)]).
    rewrite split_on_lacks by auto. cbn [app]. reflexivity.
  Qed.
End Line.

(** ** Percentiles *)
Lemma pct_loop_short {F P} (freq : N -> N -> F) (ge : F -> P -> bool) same_int bound total bs :
  forall i n ps, (List.length (pct_loop freq ge same_int bound total i n bs ps) <= List.length ps)%nat.
Proof.
  induction bs as [|b bs IH]; intros i n ps; cbn [pct_loop List.length]; [lia|].
  destruct ps as [|p ps]; cbn [List.length]; [lia|].
  destruct (ge _ _); cbn [List.length]; [specialize (IH (S i) (n + b)%N ps); lia|].
  specialize (IH (S i) (n + b)%N (p :: ps)). cbn [List.length] in IH. lia.
Qed.
Lemma percentiles_length {F P} (freq : N -> N -> F) (ge : F -> P -> bool) same_int bound c ps :
  List.length (percentiles freq ge same_int bound c ps) = List.length ps.
Proof.
  unfold percentiles. rewrite app_length, repeat_length.
  pose proof (pct_loop_short freq ge same_int bound (ce_n c) (ce_buckets c) 0 0%N ps). lia.
Qed.

Definition plain (s : string) : Prop := lacks "," s /\ lacks "%" s.
Lemma split_comma_on s : split_comma s = split_on "," s.
Proof.
  induction s as [|c s IH]; cbn; auto. rewrite IH. pose proof (split_on_nonempty "," s).
  destruct (split_on "," s); [congruence|]. destruct (Ascii.eqb c ","); auto.
Qed.
Lemma split_on_pieces c s : Forall (lacks c) (split_on c s).
Proof.
  induction s as [|d s IH]; cbn; [constructor; auto; apply lacks_nil|].
  destruct (Ascii.eqb_spec d c); [constructor; auto; apply lacks_nil|].
  pose proof (split_on_nonempty c s). destruct (split_on c s); [congruence|]. inversion IH; subst.
  constructor; auto. apply lacks_cons; auto.
Qed.
Lemma digits_value_spec s : forall acc, digits s -> digits_value acc s = Some (number acc s).
Proof.
  induction s as [|c s IH]; intros acc; cbn; auto. intros [H1 H2]. apply is_digit_digit in H1 as E. rewrite E, IH by auto.
  do 2 f_equal. unfold digit, nat_of_ascii in H1. lia.
Qed.
Lemma digits_value_inv s : forall acc n, digits_value acc s = Some n -> digits s.
Proof.
  induction s as [|c s IH]; intros acc n; [intros _; exact I|]. cbn [digits_value]. destruct (is_digit c) eqn:E; [|discriminate].
  intros H. split; [now apply is_digit_digit|]. eapply IH; eauto.
Qed.
Lemma every_app P a b : every P (a ++ b) <-> every P a /\ every P b.
Proof. induction a as [|c a IH]; cbn [append every]; [tauto|]. rewrite IH. tauto. Qed.
Lemma digits_app a b : digits (a ++ b) <-> digits a /\ digits b.
Proof. apply every_app. Qed.
Lemma cut_point_spec s : let (a, b) := cut_point s in s = a ++ match b with Some f => "." ++ f | None => "" end.
Proof.
  induction s as [|c s IH]; cbn; auto. destruct (Ascii.eqb_spec c "."); [now subst|].
  destruct (cut_point s) as [a b]. cbn [append]. f_equal. exact IH.
Qed.
Lemma digit_point : ~ digit ".".
Proof. unfold digit. change (nat_of_ascii ".") with 46. lia. Qed.
Lemma cut_point_none a : digits a -> cut_point a = (a, None).
Proof.
  induction a as [|c a IH]; cbn; auto. intros [H1 H2]. rewrite IH by auto.
  destruct (Ascii.eqb_spec c "."); auto. subst c. exfalso. exact (digit_point H1).
Qed.
Lemma cut_point_some a b : digits a -> cut_point (a ++ "." ++ b) = (a, Some b).
Proof.
  induction a as [|c a IH]; cbn; auto. intros [H1 H2]. cbn in IH. rewrite IH by auto.
  destruct (Ascii.eqb_spec c "."); auto. subst c. exfalso. exact (digit_point H1).
Qed.
Lemma lower_digit c s : digit c \/ c = "."%char -> to_lower (String c s) <> "nan".
Proof.
  intros H E. cbn in E. assert (X : (if ((65 <=? N_of_ascii c) && (N_of_ascii c <=? 90))%N%bool then ascii_of_N (N_of_ascii c + 32) else c) = "n"%char) by congruence.
  clear E. destruct ((65 <=? N_of_ascii c) && (N_of_ascii c <=? 90))%N%bool eqn:B.
  - apply andb_true_iff in B as [B1 B2]. apply N.leb_le in B1, B2. destruct H as [H|H]; [unfold digit, nat_of_ascii in H; lia|].
    subst c. cbn in B1. lia.
  - subst c. destruct H as [H|H]; [revert H; unfold digit; change (nat_of_ascii "n") with 110; lia|discriminate].
Qed.
Lemma parse_float_spec s p : parse_float s = Some p <-> reads s p.
Proof.
  unfold parse_float. split.
  - destruct (String.eqb_spec (to_lower s) "nan") as [E|E]; [intros [= <-]; now constructor|].
    pose proof (cut_point_spec s) as C. destruct (cut_point s) as [a b]. subst s.
    destruct b as [f|].
    + destruct (String.eqb_spec (a ++ f) "") as [N|N]; [discriminate|].
      destruct (digits_value 0 (a ++ f)) eqn:D; [|discriminate]. intros [= <-]. apply digits_value_inv in D as D'.
      rewrite digits_value_spec in D by auto. injection D as <-. apply digits_app in D' as [D1 D2]. now constructor.
    + rewrite !str_app_nil in *. destruct (String.eqb_spec a "") as [N|N]; [discriminate|].
      destruct (digits_value 0 a) eqn:D; [|discriminate]. intros [= <-]. apply digits_value_inv in D as D'.
      rewrite digits_value_spec in D by auto. injection D as <-. cbn [String.length]. now constructor.
  - intros H. destruct H as [a N D|a b N D1 D2|s E].
    + destruct (String.eqb_spec (to_lower a) "nan") as [E|E].
      { destruct a as [|c a]; [congruence|]. exfalso. revert E. apply lower_digit. left. apply D. }
      rewrite cut_point_none, !str_app_nil by auto. destruct (String.eqb_spec a ""); [congruence|].
      rewrite digits_value_spec by auto. reflexivity.
    + destruct (String.eqb_spec (to_lower (a ++ "." ++ b)) "nan") as [E|E].
      { exfalso. destruct a as [|c a]; revert E; [apply lower_digit; auto|]. apply (lower_digit c (a ++ "." ++ b)). left. apply D1. }
      rewrite cut_point_some by auto. destruct (String.eqb_spec (a ++ b) ""); [congruence|].
      rewrite digits_value_spec by (apply digits_app; auto). reflexivity.
    + rewrite E. reflexivity.
Qed.

Lemma out_of_range_spec p : out_of_range p = false <-> in_range p.
Proof. destruct p; cbn; [tauto|]. now rewrite N.ltb_ge. Qed.

(** The characters of such a text. *)
Definition pct_char (c : ascii) : Prop := digit c \/ In c ["."; "n"; "a"; "N"; "A"]%char.
Lemma lower_cases c d : (if ((65 <=? N_of_ascii c) && (N_of_ascii c <=? 90))%N%bool then ascii_of_N (N_of_ascii c + 32) else c) = d ->
  c = d \/ c = ascii_of_N (N_of_ascii d - 32).
Proof.
  destruct ((65 <=? N_of_ascii c) && (N_of_ascii c <=? 90))%N%bool eqn:B; [|auto].
  apply andb_true_iff in B as [B1 B2]. apply N.leb_le in B1, B2. intros <-. right.
  rewrite N_ascii_embedding by lia. replace (N_of_ascii c + 32 - 32)%N with (N_of_ascii c) by lia. now rewrite ascii_N_embedding.
Qed.
Lemma every_impl (P Q : ascii -> Prop) s : (forall c, P c -> Q c) -> every P s -> every Q s.
Proof. intros H. induction s as [|c s IH]; cbn; auto. intros [A B]. auto. Qed.
Lemma reads_chars s p : reads s p -> s <> "" /\ every pct_char s.
Proof.
  intros H. assert (I : forall a, digits a -> every pct_char a) by (intros a; apply every_impl; left; auto).
  destruct H as [a N D|a b N D1 D2|s E].
  - auto.
  - split; [destruct a; discriminate|]. apply every_app. split; auto. split; [right; cbn; auto|auto].
  - destruct s as [|c1 [|c2 [|c3 [|c4 s]]]]; try discriminate. split; [discriminate|]. cbn in E.
    injection E as E1 E2 E3. apply lower_cases in E1, E2, E3. cbn in E1, E2, E3.
    cbn [every]. unfold pct_char. cbn [In]. intuition subst; tauto.
Qed.
Lemma pct_char_not c : pct_char c -> ~ ws c /\ is_pP c = false /\ c <> ","%char /\ c <> "%"%char.
Proof.
  unfold pct_char, ws, digit, is_pP. intros [H|H].
  - split; [cbn [In]; intuition lia|]. destruct (Ascii.eqb_spec c "P"); [subst; vm_compute in H; lia|].
    destruct (Ascii.eqb_spec c "p"); [subst; vm_compute in H; lia|]. repeat split; intros ->; vm_compute in H; lia.
  - cbn [In] in H. intuition subst; cbn in *; intuition (try discriminate; try lia).
Qed.
Lemma every_lacks P c s : every P s -> ~ P c -> lacks c s.
Proof. intros H N. induction s as [|d s IH]; [apply lacks_nil|]. destruct H. apply lacks_cons; auto. congruence. Qed.

Lemma every_no_margin s : every (fun c => ~ ws c) s -> no_margin s.
Proof.
  intros H. split; [destruct s; cbn in *; tauto|]. intros a c ->. apply every_app in H. cbn in H. tauto.
Qed.

Lemma parse_all_some l ns ps : parse_all l = Some (ns, ps) ->
  List.length ns = List.length l /\
  Forall2 (fun n p => exists t, n = "P" ++ t /\ reads t p /\ in_range p) ns ps.
Proof.
  revert ns ps. induction l as [|raw l IH]; intros ns ps; cbn [parse_all]; [intros [= <- <-]; auto|].
  destruct (parse_float _) as [f|] eqn:E; [|discriminate]. destruct (out_of_range f) eqn:R; [discriminate|].
  destruct (parse_all l) as [[ns' ps']|]; [|discriminate]. intros [= <- <-]. destruct (IH _ _ eq_refl) as [L F].
  split; [cbn; congruence|]. constructor; auto. eexists. split; [reflexivity|]. split; [now apply parse_float_spec|now apply out_of_range_spec].
Qed.

Lemma parse_all_texts ts ps : Forall2 reads ts ps -> Forall in_range ps ->
  parse_all (map (fun t => "P" ++ t) ts) = Some (map (fun t => "P" ++ t) ts, ps).
Proof.
  induction 1 as [|t p ts ps H _ IH]; intros R; [reflexivity|]. inversion R; subst. cbn [map parse_all].
  destruct (reads_chars _ _ H) as [NE C].
  assert (M : trim_space ("P" ++ t) = "P" ++ t).
  { apply trim_space_id, every_no_margin. split; [unfold ws; cbn; intuition discriminate|].
    revert C. apply every_impl. intros c X. apply (pct_char_not c X). }
  rewrite M. change (trim_left is_pP ("P" ++ t)) with (trim_left is_pP t).
  replace (trim_left is_pP t) with t.
  2: { destruct t as [|c t]; [congruence|]. cbn. destruct C as [C _]. apply pct_char_not in C as [_ [-> _]]. reflexivity. }
  apply parse_float_spec in H. rewrite H. assert (O : out_of_range p = false) by now apply out_of_range_spec.
  rewrite O, IH by auto. reflexivity.
Qed.

Lemma parse_all_none l ts ps : Forall2 (fun raw t => trim_left is_pP (trim_space raw) = t) l ts ->
  Forall2 reads ts ps -> ~ Forall in_range ps -> parse_all l = None.
Proof.
  intros H. revert ps. induction H as [|raw t l ts E _ IH]; intros ps R N; inversion R; subst; [exfalso; auto|].
  cbn [parse_all]. match goal with X : reads _ _ |- _ => apply parse_float_spec in X; rewrite X end.
  destruct (out_of_range y) eqn:O; auto. apply out_of_range_spec in O. erewrite IH; eauto.
Qed.

(** ** Whole lines *)
Section Whole.
  Context {F R : Type}.
  Variable f1 : F -> string.
  Variable rate : N -> F -> Z.
  Variable comma : Z -> string.
  Variable freq : N -> N -> R.
  Variable ge : R -> pct -> bool.
  Variable same_int : pct -> R -> bool.
  Variable bound : nat -> N.
  Notation pcts := (pcts freq ge same_int bound).

  Lemma map_ne {A B} (f : A -> B) (ps : list pct) (g : list pct -> list A) : (forall l, List.length (g l) = List.length l) -> ps <> [] -> map f (g ps) <> [].
  Proof. intros H N E. apply N. destruct ps; auto. specialize (H (p :: ps)). destruct (g (p :: ps)); cbn in *; discriminate. Qed.

  Lemma csv_columns ps f rest line t :
    (forall x, lacks "," (f1 x) /\ lacks "P" (f1 x)) -> ps <> [] ->
    (rest = [] -> lacks "," (i_host f)) ->
    combine_all (copy_stats stats_new (i_total f)) (map i_total rest) = Some t ->
    csv_line f1 rate freq ge same_int bound ps (f :: rest) = Some line ->
    let qps q := format_int (rate (ce_n (cell_of t q)) (i_seconds f)) in
    let least q := format_int (ce_min (cell_of t q)) in
    let most q := format_int (ce_max (cell_of t q)) in
    let pc q := map format_uint (percentiles freq ge same_int bound (cell_of t q) ps) in
    split_on "," line =
      ([format_uint (i_interval f); f1 (i_seconds f); f1 (i_runtime f); format_uint (add_clients (i_clients f) rest)] ++
       [qps TOTAL; least TOTAL] ++ pc TOTAL ++ [most TOTAL] ++
       [qps READ; least READ] ++ pc READ ++ [most READ] ++
       [qps WRITE; least WRITE] ++ pc WRITE ++ [most WRITE] ++
       [qps COMMIT; least COMMIT] ++ pc COMMIT ++ [most COMMIT] ++
       [format_uint (error_count t);
        match rest with [] => i_host f | _ => (format_uint (N.of_nat (List.length (f :: rest))) ++ " combined")%string end])%list.
  Proof.
    clear comma. intros Hf Hps Hh Ht Hl. cbv zeta. unfold csv_line in Hl. rewrite Ht in Hl. cbv zeta in Hl. apply (f_equal (fun o => match o with Some x => x | None => "" end)) in Hl.
    cbv beta iota in Hl. rewrite <- Hl. clear Hl.
    set (compute := match rest with [] => i_host f | _ => _ end).
    assert (Hc : lacks "," compute).
    { unfold compute. destruct rest; [auto|]. apply lacks_app; [apply uint_lacks; cbn; lia|]. intros X. cbn in X. intuition discriminate. }
    unfold fill, ints_to_string.
    set (q1 := map format_uint (pcts (cell_of t TOTAL) ps)). set (q2 := map format_uint (pcts (cell_of t READ) ps)).
    set (q3 := map format_uint (pcts (cell_of t WRITE) ps)). set (q4 := map format_uint (pcts (cell_of t COMMIT) ps)).
    match goal with |- context [sprintf Fmt [?a1; ?a2; ?a3; ?a4; ?b1; ?b2; ?b3; ?c1; ?c2; ?c3; ?d1; ?d2; ?d3; ?e1; ?e2; ?e3; ?er; ?h]] =>
      change (sprintf Fmt [a1; a2; a3; a4; b1; b2; b3; c1; c2; c3; d1; d2; d3; e1; e2; e3; er; h])
        with (raw "," a1 a2 a3 a4 b1 b2 b3 c1 c2 c3 d1 d2 d3 e1 e2 e3 er h) end.
    assert (U : forall n, ok "," (format_uint n)) by (intros n; split; apply uint_lacks; cbn; lia).
    assert (I : forall z, ok "," (format_int z)) by (intros z; split; apply int_lacks; cbn; lia).
    rewrite raw_filled.
    - rewrite filled_split.
      + reflexivity.
      + repeat constructor; try apply U; try apply I; apply Hf.
      + unfold q1, q2, q3, q4. rewrite <- !map_app. apply Forall_forall. intros s Hs. apply in_map_iff in Hs as [n [<- _]]. apply U.
      + exact Hc.
      + unfold q1, q2, q3, q4, ReportModel.pcts. repeat split; apply map_ne; auto; intros; apply percentiles_length.
    - discriminate.
    - repeat constructor; try apply U; try apply I; apply Hf.
    - unfold q1, q2, q3, q4. rewrite <- !map_app. apply Forall_forall. intros s Hs. apply in_map_iff in Hs as [n [<- _]]. apply U.
  Qed.

  Lemma fprintf0_id s : lacks "%" s -> fprintf0 s = s.
  Proof.
    induction s as [|c s IH]; cbn [fprintf0]; auto. intros H. apply lacks_inv in H as [H1 H2].
    destruct (Ascii.eqb_spec c "%"); [congruence|]. now rewrite IH.
  Qed.

  Lemma stdout_columns ps i :
    (forall x, lacks tab (f1 x) /\ lacks "P" (f1 x) /\ lacks "%" (f1 x)) ->
    (forall z, lacks tab (comma z) /\ lacks "P" (comma z) /\ lacks "%" (comma z)) ->
    ps <> [] -> lacks tab (i_host i) -> lacks "%" (i_host i) ->
    let t := i_total i in
    let qps q := comma (rate (ce_n (cell_of t q)) (i_seconds i)) in
    let least q := comma (ce_min (cell_of t q)) in
    let most q := comma (ce_max (cell_of t q)) in
    let pc q := map (fun n => comma (i64 (Z.of_N n))) (percentiles freq ge same_int bound (cell_of t q) ps) in
    split_on tab (stdout_line f1 rate comma freq ge same_int bound ps i) =
      ([format_uint (i_interval i); f1 (i_seconds i); f1 (i_runtime i); format_uint (i_clients i)] ++
       [qps TOTAL; least TOTAL] ++ pc TOTAL ++ [most TOTAL] ++
       [qps READ; least READ] ++ pc READ ++ [most READ] ++
       [qps WRITE; least WRITE] ++ pc WRITE ++ [most WRITE] ++
       [qps COMMIT; least COMMIT] ++ pc COMMIT ++ [most COMMIT] ++
       [comma (i64 (Z.of_N (error_count t))); i_host i])%list.
  Proof.
    intros Hf Hc Hps Hh1 Hh2. cbv zeta. unfold stdout_line, stdout_text. cbv zeta. unfold fill, ints_to_string.
    set (t := i_total i).
    change (i64c comma) with (fun n => comma (i64 (Z.of_N n))).
    set (q1 := map _ (pcts (cell_of t TOTAL) ps)). set (q2 := map _ (pcts (cell_of t READ) ps)).
    set (q3 := map _ (pcts (cell_of t WRITE) ps)). set (q4 := map _ (pcts (cell_of t COMMIT) ps)).
    match goal with |- context [sprintf StdoutFmt [?a1; ?a2; ?a3; ?a4; ?b1; ?b2; ?b3; ?c1; ?c2; ?c3; ?d1; ?d2; ?d3; ?e1; ?e2; ?e3; ?er; ?h]] =>
      change (sprintf StdoutFmt [a1; a2; a3; a4; b1; b2; b3; c1; c2; c3; d1; d2; d3; e1; e2; e3; er; h])
        with (raw tab a1 a2 a3 a4 b1 b2 b3 c1 c2 c3 d1 d2 d3 e1 e2 e3 er h) end.
    assert (U : forall n, ok tab (format_uint n) /\ lacks "%" (format_uint n)) by (intros n; repeat split; apply uint_lacks; first [left; reflexivity|right; reflexivity]).
    assert (C : forall z, ok tab (comma z) /\ lacks "%" (comma z)) by (intros z; destruct (Hc z) as [? [? ?]]; repeat split; auto).
    assert (G : forall x, ok tab (f1 x) /\ lacks "%" (f1 x)) by (intros z; destruct (Hf z) as [? [? ?]]; repeat split; auto).
    assert (Q : Forall (fun s => ok tab s /\ lacks "%" s) (q1 ++ q2 ++ q3 ++ q4)%list).
    { unfold q1, q2, q3, q4. rewrite <- !map_app. apply Forall_forall. intros s Hs. apply in_map_iff in Hs as [n [<- _]]. apply C. }
    assert (Q' : Forall (ok tab) (q1 ++ q2 ++ q3 ++ q4)%list) by (eapply Forall_impl; [|exact Q]; cbn; tauto).
    rewrite raw_filled; [|discriminate|repeat constructor; first [apply U|apply C|apply G]|exact Q'].
    rewrite fprintf0_id.
    - rewrite filled_split.
      + reflexivity.
      + repeat constructor; first [apply U|apply C|apply G].
      + exact Q'.
      + exact Hh1.
      + unfold q1, q2, q3, q4, ReportModel.pcts. repeat split; apply map_ne; auto; intros; apply percentiles_length.
    - assert (J : forall p, Forall (fun s => ok tab s /\ lacks "%" s) p -> lacks "%" (join (String tab "") p)).
      { intros p H. apply lacks_join; [apply lacks_cons; [discriminate|apply lacks_nil]|]. eapply Forall_impl; [|exact H]. intros s [_ X]; auto. }
      rewrite !Forall_app in Q. destruct Q as [Q1 [Q2 [Q3 Q4]]]. apply J in Q1, Q2, Q3, Q4.
      unfold filled. cbv zeta.
      repeat first [exact Hh2 | apply lacks_app; [first [assumption|apply U|apply C|apply G]|] | apply lacks_cons; [discriminate|]].
  Qed.

  Lemma fprintf0_app a s : lacks "%" a -> fprintf0 (a ++ s) = a ++ fprintf0 s.
  Proof.
    induction a as [|c a IH]; cbn [append fprintf0]; auto. intros H. apply lacks_inv in H as [H1 H2].
    destruct (Ascii.eqb_spec c "%"); [congruence|]. now rewrite IH.
  Qed.
  Lemma stdout_percent ps i :
    (forall x, lacks tab (f1 x) /\ lacks "P" (f1 x) /\ lacks "%" (f1 x)) ->
    (forall z, lacks tab (comma z) /\ lacks "P" (comma z) /\ lacks "%" (comma z)) ->
    ps <> [] -> i_host i = "cpu50%a" ->
    exists front, stdout_line f1 rate comma freq ge same_int bound ps i = front ++ String tab "cpu50%!a(MISSING)".
  Proof.
    intros Hf Hc Hps Hh. unfold stdout_line, stdout_text. cbv zeta. unfold fill, ints_to_string.
    set (t := i_total i).
    change (i64c comma) with (fun n => comma (i64 (Z.of_N n))).
    set (q1 := map _ (pcts (cell_of t TOTAL) ps)). set (q2 := map _ (pcts (cell_of t READ) ps)).
    set (q3 := map _ (pcts (cell_of t WRITE) ps)). set (q4 := map _ (pcts (cell_of t COMMIT) ps)).
    match goal with |- context [sprintf StdoutFmt [?a1; ?a2; ?a3; ?a4; ?b1; ?b2; ?b3; ?c1; ?c2; ?c3; ?d1; ?d2; ?d3; ?e1; ?e2; ?e3; ?er; ?h]] =>
      change (sprintf StdoutFmt [a1; a2; a3; a4; b1; b2; b3; c1; c2; c3; d1; d2; d3; e1; e2; e3; er; h])
        with (raw tab a1 a2 a3 a4 b1 b2 b3 c1 c2 c3 d1 d2 d3 e1 e2 e3 er h) end.
    assert (U : forall n, ok tab (format_uint n) /\ lacks "%" (format_uint n)) by (intros n; repeat split; apply uint_lacks; first [left; reflexivity|right; reflexivity]).
    assert (C : forall z, ok tab (comma z) /\ lacks "%" (comma z)) by (intros z; destruct (Hc z) as [? [? ?]]; repeat split; auto).
    assert (G : forall x, ok tab (f1 x) /\ lacks "%" (f1 x)) by (intros z; destruct (Hf z) as [? [? ?]]; repeat split; auto).
    assert (Q : Forall (fun s => ok tab s /\ lacks "%" s) (q1 ++ q2 ++ q3 ++ q4)%list).
    { unfold q1, q2, q3, q4. rewrite <- !map_app. apply Forall_forall. intros s Hs. apply in_map_iff in Hs as [n [<- _]]. apply C. }
    assert (Q' : Forall (ok tab) (q1 ++ q2 ++ q3 ++ q4)%list) by (eapply Forall_impl; [|exact Q]; cbn; tauto).
    rewrite raw_filled; [|discriminate|repeat constructor; first [apply U|apply C|apply G]|exact Q'].
    rewrite Hh. 
    assert (J : forall p, Forall (fun s => ok tab s /\ lacks "%" s) p -> lacks "%" (join (String tab "") p)).
    { intros p H. apply lacks_join; [apply lacks_cons; [discriminate|apply lacks_nil]|]. eapply Forall_impl; [|exact H]. intros s [_ X]; auto. }
    rewrite !Forall_app in Q. destruct Q as [Q1 [Q2 [Q3 Q4]]]. apply J in Q1, Q2, Q3, Q4.
    unfold filled. cbv zeta.
    assert (K : forall a s r, lacks "%" a -> (exists front, fprintf0 s = front ++ r) -> exists front, fprintf0 (a ++ String tab s) = front ++ r).
    { intros a s r Ha [front E]. exists (a ++ String tab front). rewrite fprintf0_app by auto. cbn [fprintf0].
      change (Ascii.eqb tab "%") with false. cbv iota. rewrite E, str_app_assoc. reflexivity. }
    assert (K' : forall a, lacks "%" a -> exists front, fprintf0 (a ++ String tab "cpu50%a") = front ++ String tab "cpu50%!a(MISSING)").
    { intros a Ha. exists a. now rewrite fprintf0_app. }
    repeat first [apply K'; apply C | apply K; [first [assumption|apply U|apply C|apply G]|]].
  Qed.

  Lemma header_columns names : names <> [] -> Forall (lacks ",") names ->
    split_on "," (header names) =
      (["interval"; "duration"; "runtime"; "clients"; "QPS"; "min"] ++ names ++
       ["max"; "r_QPS"; "r_min"] ++ map (fun n => "r_" ++ n)%string names ++
       ["r_max"; "w_QPS"; "w_min"] ++ map (fun n => "w_" ++ n)%string names ++
       ["w_max"; "TPS"; "c_min"] ++ map (fun n => "c_" ++ n)%string names ++
       ["c_max"; "errors"; "compute"])%list.
  Proof.
    intros NE H.
    assert (W : forall p, lacks "," p -> Forall (lacks ",") (map (fun n => p ++ n) names)).
    { intros p Hp. apply Forall_forall. intros s Hs. apply in_map_iff in Hs as [n [<- Hn]]. rewrite Forall_forall in H. apply lacks_app; auto. }
    assert (M : forall p, map (fun n => p ++ n) names <> []) by (intros p; destruct names; [congruence|discriminate]).
    unfold header, with_prefix. set (r := map (fun n => "r_" ++ n) names). set (w := map (fun n => "w_" ++ n) names). set (cc := map (fun n => "c_" ++ n) names).
    set (k1 := join "," names). set (k2 := join "," r). set (k3 := join "," w). set (k4 := join "," cc).
    change (sprintf Header [k1; k2; k3; k4]) with
      ("interval" ++ String "," ("duration" ++ String "," ("runtime" ++ String "," ("clients" ++ String "," ("QPS" ++ String "," ("min" ++ String "," (k1 ++
       String "," ("max" ++ String "," ("r_QPS" ++ String "," ("r_min" ++ String "," (k2 ++
       String "," ("r_max" ++ String "," ("w_QPS" ++ String "," ("w_min" ++ String "," (k3 ++
       String "," ("w_max" ++ String "," ("TPS" ++ String "," ("c_min" ++ String "," (k4 ++
       String "," ("c_max" ++ String "," ("errors" ++ String "," "compute"))))))))))))))))))))).
    subst k1 k2 k3 k4.
    assert (L : forall s, forallb (fun c => negb (Ascii.eqb c ",")) (list_ascii_of_string s) = true -> lacks "," s).
    { intros s Hs Hin. rewrite forallb_forall in Hs. specialize (Hs _ Hin). now rewrite Ascii.eqb_refl in Hs. }
    repeat first [rewrite split_on_join by (first [assumption | apply M | apply W, L; reflexivity]) | rewrite split_on_app by (apply L; reflexivity)].
    rewrite split_on_lacks by (apply L; reflexivity). reflexivity.
  Qed.

  Lemma tabs_split s : lacks tab s -> split_on tab (tabs s) = split_on "," s.
  Proof.
    induction s as [|c s IH]; auto. intros H. apply lacks_inv in H as [H1 H2]. cbn [tabs split_on].
    rewrite IH by auto. destruct (Ascii.eqb_spec c ","); [now rewrite Ascii.eqb_refl|]. destruct (Ascii.eqb_spec c tab); [congruence|]. reflexivity.
  Qed.
  Lemma header_lacks names : Forall (lacks tab) names -> lacks tab (header names).
  Proof.
    intros H.
    assert (L : forall s, forallb (fun c => negb (Ascii.eqb c tab)) (list_ascii_of_string s) = true -> lacks tab s).
    { intros s Hs Hin. rewrite forallb_forall in Hs. specialize (Hs _ Hin). now rewrite Ascii.eqb_refl in Hs. }
    assert (W : forall p, lacks tab p -> Forall (lacks tab) (map (fun n => p ++ n) names)).
    { intros p Hp. apply Forall_forall. intros s Hs. apply in_map_iff in Hs as [n [<- Hn]]. rewrite Forall_forall in H. apply lacks_app; auto. }
    unfold header, with_prefix.
    assert (K1 : lacks tab (join "," names)) by (apply lacks_join; auto; apply L; reflexivity).
    assert (K2 : lacks tab (join "," (map (fun n => "r_" ++ n) names))) by (apply lacks_join; [|apply W]; apply L; reflexivity).
    assert (K3 : lacks tab (join "," (map (fun n => "w_" ++ n) names))) by (apply lacks_join; [|apply W]; apply L; reflexivity).
    assert (K4 : lacks tab (join "," (map (fun n => "c_" ++ n) names))) by (apply lacks_join; [|apply W]; apply L; reflexivity).
    revert K1 K2 K3 K4. generalize (join "," names) (join "," (map (fun n => "r_" ++ n) names)) (join "," (map (fun n => "w_" ++ n) names)) (join "," (map (fun n => "c_" ++ n) names)).
    intros k1 k2 k3 k4 K1 K2 K3 K4. cbn [sprintf Header Ascii.eqb Bool.eqb].
    repeat first [apply lacks_nil | assumption | apply lacks_app; [assumption|] | apply lacks_cons; [discriminate|]].
  Qed.
End Whole.

Lemma trimmed_P t p : reads t p -> trim_left is_pP (trim_space ("P" ++ t)) = t.
Proof.
  intros H. destruct (reads_chars _ _ H) as [NE C].
  assert (M : trim_space ("P" ++ t) = "P" ++ t).
  { apply trim_space_id, every_no_margin. split; [unfold ws; cbn; intuition discriminate|].
    revert C. apply every_impl. intros c X. apply (pct_char_not c X). }
  rewrite M. change (trim_left is_pP ("P" ++ t)) with (trim_left is_pP t).
  destruct t as [|c t]; [congruence|]. cbn. destruct C as [C _]. apply pct_char_not in C as [_ [-> _]]. reflexivity.
Qed.
Lemma split_join_P ts ps : ts <> [] -> Forall2 reads ts ps ->
  trim_space (join "," (map (fun t => "P" ++ t) ts)) <> "" /\
  split_comma (join "," (map (fun t => "P" ++ t) ts)) = map (fun t => "P" ++ t) ts.
Proof.
  intros NE H. split.
  - destruct ts as [|t ts]; [congruence|]. intros E. apply (f_equal (fun s => "" ++ s)) in E.
    assert (S : exists s, join "," (map (fun t => "P" ++ t) (t :: ts)) = String "P" s).
    { cbn [map join]. destruct (map (fun t => "P" ++ t) ts); eexists; reflexivity. }
    destruct S as [s S]. rewrite S in E. unfold trim_space in E. cbn [trim_left] in E. change (is_ws "P") with false in E. cbv iota in E.
    cbn [trim_right append] in E. destruct (trim_right is_ws s); discriminate.
  - rewrite split_comma_on. assert (L : Forall (lacks ",") (map (fun t => "P" ++ t) ts)).
    { clear NE. induction H as [|t p ts ps R _ IH]; constructor; auto. apply lacks_cons; [discriminate|].
      apply reads_chars in R as [_ R]. apply (every_lacks _ _ _ R). intros X. apply pct_char_not in X. tauto. }
    assert (NE' : map (fun t => "P" ++ t) ts <> []) by (destruct ts; [congruence|discriminate]).
    clear -L NE'. induction (map (fun t => "P" ++ t) ts) as [|w l IH]; [congruence|]. inversion L; subst. destruct l as [|w' l].
    + cbn [join]. now apply split_on_lacks.
    + change (join "," (w :: w' :: l)) with (w ++ String "," (join "," (w' :: l))). rewrite split_on_app by auto. rewrite IH; auto. discriminate.
Qed.
Lemma percentiles_accepted ts ps : ts <> [] -> Forall2 reads ts ps -> Forall in_range ps ->
  parse_percentiles (join "," (map (fun t => "P" ++ t) ts)) = Some (map (fun t => "P" ++ t) ts, ps).
Proof.
  intros NE H R. destruct (split_join_P ts ps NE H) as [A B]. unfold parse_percentiles.
  destruct (String.eqb_spec (trim_space (join "," (map (fun t => "P" ++ t) ts))) ""); [congruence|].
  rewrite B. now apply parse_all_texts.
Qed.
Lemma percentiles_refused ts ps : Forall2 reads ts ps -> ~ Forall in_range ps ->
  parse_percentiles (join "," (map (fun t => "P" ++ t) ts)) = None.
Proof.
  intros H R. assert (NE : ts <> []) by (intros ->; inversion H; subst; auto).
  destruct (split_join_P ts ps NE H) as [A B]. unfold parse_percentiles.
  destruct (String.eqb_spec (trim_space (join "," (map (fun t => "P" ++ t) ts))) ""); [congruence|].
  rewrite B. apply (parse_all_none _ ts ps); auto. clear -H. induction H as [|t p ts ps R _ IH]; constructor; auto. eapply trimmed_P; eauto.
Qed.

(** ** Exactly what is accepted *)
Lemma trim_left_split q s : exists a, s = a ++ trim_left q s /\ every (fun c => q c = true) a.
Proof.
  induction s as [|c s IH]; cbn [trim_left]; [now exists ""|]. destruct (q c) eqn:E; [|now exists ""].
  destruct IH as (a & X & Y). exists (String c a). cbn [append every]. split; [congruence|auto].
Qed.
Lemma trim_right_split q s : exists b, s = trim_right q s ++ b /\ every (fun c => q c = true) b.
Proof.
  induction s as [|c s (b & X & Y)]; cbn [trim_right]; [now exists ""|]. destruct (trim_right q s) as [|d t] eqn:T.
  - destruct (q c) eqn:E; [exists (String c b)|exists b]; cbn [append every] in *; split; auto; congruence.
  - exists b. cbn [append]. split; [now f_equal|auto].
Qed.
Lemma trim_space_split s : exists a b, s = a ++ trim_space s ++ b /\ every ws a /\ every ws b.
Proof.
  unfold trim_space. destruct (trim_left_split is_ws s) as (a & X & A). destruct (trim_right_split is_ws (trim_left is_ws s)) as (b & Y & B).
  exists a, b. split; [congruence|]. split; [revert A|revert B]; apply every_impl; intros c; apply is_ws_spec.
Qed.
Lemma trim_left_ws a s : every ws a -> trim_left is_ws (a ++ s) = trim_left is_ws s.
Proof. induction a as [|c a IH]; [reflexivity|]. intros [A B]. cbn [append trim_left]. apply is_ws_spec in A. now rewrite A, IH. Qed.
Lemma is_pP_spec c : is_pP c = true <-> c = "P"%char \/ c = "p"%char.
Proof. unfold is_pP. now rewrite orb_true_iff, !Ascii.eqb_eq. Qed.
Lemma written_spec w t p : reads t p -> (written w t <-> trim_left is_pP (trim_space w) = t).
Proof.
  intros H. destruct (reads_chars _ _ H) as [NE C]. split.
  - intros (a & q & b & -> & A & Q & B).
    assert (NW : every (fun c => ~ ws c) (q ++ t)).
    { apply every_app. split; [revert Q; apply every_impl; intros c [-> | ->]; unfold ws; cbn; intuition discriminate|].
      revert C. apply every_impl. intros c X. apply (pct_char_not c X). }
    assert (T : trim_space (a ++ q ++ t ++ b) = q ++ t).
    { pose proof (trim_space_pad (q ++ t) b (every_no_margin _ NW) B) as T. unfold trim_space in *. rewrite trim_left_ws by auto.
      now rewrite <- sapp_assoc. }
    rewrite T. clear -Q C NE. induction q as [|c q IH].
    + destruct t as [|c t]; [congruence|]. cbn. destruct C as [C _]. apply pct_char_not in C as [_ [-> _]]. reflexivity.
    + destruct Q as [Q1 Q2]. cbn [append trim_left]. apply is_pP_spec in Q1. rewrite Q1. auto.
  - intros <-. destruct (trim_space_split w) as (a & b & E & A & B). destruct (trim_left_split is_pP (trim_space w)) as (q & E2 & Q).
    exists a, q, b. split; [rewrite <- (sapp_assoc q); congruence|]. repeat split; auto. revert Q. apply every_impl. intros c. apply is_pP_spec.
Qed.
Lemma parse_all_exactly l names ps : parse_all l = Some (names, ps) <->
  exists ts, Forall2 written l ts /\ Forall2 reads ts ps /\ Forall in_range ps /\ names = map (fun t => "P" ++ t) ts.
Proof.
  split.
  - revert names ps. induction l as [|raw l IH]; intros names ps; cbn [parse_all].
    + intros [= <- <-]. exists []. auto.
    + destruct (parse_float _) as [f|] eqn:E; [|discriminate]. destruct (out_of_range f) eqn:R; [discriminate|].
      destruct (parse_all l) as [[ns' ps']|]; [|discriminate]. intros [= <- <-].
      destruct (IH _ _ eq_refl) as (ts & A & B & C & ->). apply parse_float_spec in E.
      exists (trim_left is_pP (trim_space raw) :: ts). split; [constructor; auto; now apply (written_spec _ _ _ E)|].
      split; [now constructor|]. split; [constructor; auto; now apply out_of_range_spec|reflexivity].
  - intros (ts & W & R & I & ->). revert ps R I. induction W as [|w t l ts W _ IH]; intros ps R I; inversion R; subst; [reflexivity|].
    inversion I; subst. cbn [parse_all map]. match goal with X : reads _ _ |- _ => pose proof X as X'; apply (written_spec _ _ _ X) in W end.
    rewrite W. apply parse_float_spec in X'. rewrite X'. assert (O : out_of_range y = false) by now apply out_of_range_spec.
    rewrite O. erewrite IH by eauto. reflexivity.
Qed.
Lemma percentiles_exactly s names ps : ~ every ws s -> (parse_percentiles s = Some (names, ps) <->
  exists ts, Forall2 written (split_on "," s) ts /\ Forall2 reads ts ps /\ Forall in_range ps /\ names = map (fun t => "P" ++ t) ts).
Proof.
  intros N. unfold parse_percentiles. destruct (String.eqb_spec (trim_space s) "") as [E|E].
  - exfalso. apply N. destruct (trim_space_split s) as (a & b & X & A & B). rewrite X, E. apply every_app. auto.
  - rewrite split_comma_on. apply parse_all_exactly.
Qed.
Lemma percentiles_default s : every ws s -> parse_percentiles s = Some (["P999"], [Pct 999 1]).
Proof.
  intros H. unfold parse_percentiles. assert (E : trim_space s = "") by (apply (trim_space_pad "" s); [split; [cbn; tauto|now intros []]|auto]).
  now rewrite E.
Qed.
