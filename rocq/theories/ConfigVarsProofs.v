(** Proofs about config.Vars. *)
From Verif Require Import Prelude ConfigModel ConfigSpec.
#[local] Open Scope list_scope.
#[local] Open Scope string_scope.

(** ** Strings *)
Lemma sapp_nil s : s ++ "" = s.
Proof. induction s; cbn; congruence. Qed.
Lemma sapp_assoc a b c : (a ++ b) ++ c = a ++ (b ++ c).
Proof. induction a; cbn; congruence. Qed.
Lemma slen_app a b : String.length (a ++ b) = (String.length a + String.length b)%nat.
Proof. induction a; cbn; auto. Qed.
Lemma sapp_inj_l a b c : a ++ b = a ++ c -> b = c.
Proof. induction a; cbn; intros H; [auto|]. inv H. auto. Qed.

Lemma every_app P a b : every P (a ++ b) <-> every P a /\ every P b.
Proof. induction a; cbn; tauto. Qed.
Lemma every_impl (P Q : ascii -> Prop) s : (forall c, P c -> Q c) -> every P s -> every Q s.
Proof. intros H. induction s; cbn; intuition. Qed.

Lemma strip_prefix_app p s : strip_prefix p (p ++ s) = Some s.
Proof. induction p; cbn; [auto|]. now rewrite Ascii.eqb_refl. Qed.
Lemma strip_prefix_some p s r : strip_prefix p s = Some r -> s = p ++ r.
Proof.
  revert s; induction p; intros [|b s] H; cbn in *; try congruence.
  destruct (Ascii.eqb_spec a b); [|discriminate]. subst. f_equal. auto.
Qed.
Lemma strip_prefix_none p s : (forall r, s <> p ++ r) -> strip_prefix p s = None.
Proof.
  intros H. destruct (strip_prefix p s) eqn:E; auto. apply strip_prefix_some in E. now apply H in E.
Qed.

Lemma span_app p a b : every (fun c => p c = true) a ->
  (match b with "" => True | String c _ => p c = false end) -> span p (a ++ b) = (a, b).
Proof.
  induction a; cbn; intros H H0.
  - destruct b; cbn; auto. now rewrite H0.
  - destruct H as [-> H]. now rewrite IHa.
Qed.

(** ** Segments: a text cut into the matches of a matcher and single characters *)
Inductive seg := Plain (c : ascii) | Hit (w n : string).
Definition seg_text (g : seg) : string := match g with Plain c => String c "" | Hit w _ => w end.
Fixpoint stext (l : list seg) : string :=
  match l with [] => "" | g :: l' => seg_text g ++ stext l' end.
Fixpoint hits (l : list seg) : list (string * string) :=
  match l with [] => [] | Plain _ :: l' => hits l' | Hit w n :: l' => (w, n) :: hits l' end.
Fixpoint segs_ok (m : matcher) (l : list seg) : Prop :=
  match l with
  | [] => True
  | g :: l' =>
      match g with
      | Plain c => m (String c (stext l')) = None
      | Hit w n => w <> "" /\ m (w ++ stext l') = Some (w, n, stext l')
      end /\ segs_ok m l'
  end.

Lemma find_all_segs m l : segs_ok m l -> forall fuel, (String.length (stext l) <= fuel)%nat ->
  find_all m fuel (stext l) = hits l.
Proof.
  induction l as [|g l IH]; intros H fuel Hf; cbn in *.
  - now destruct fuel.
  - destruct H as [H1 H2]. rewrite slen_app in Hf.
    destruct g as [c|w n]; cbn in *.
    + destruct fuel; [lia|]. cbn. rewrite H1. apply IH; auto. lia.
    + destruct H1 as [Hw H1]. destruct w as [|c w]; [congruence|].
      destruct fuel; [cbn in Hf; lia|]. cbn in *. rewrite H1. f_equal. apply IH; auto. lia.
Qed.

Fixpoint sout (f : string -> string) (l : list seg) : string :=
  match l with
  | [] => ""
  | Plain c :: l' => String c (sout f l')
  | Hit _ n :: l' => f n ++ sout f l'
  end.
Fixpoint reps_ok (pairs : list (string * string)) (f : string -> string) (l : list seg) : Prop :=
  match l with
  | [] => True
  | g :: l' =>
      match g with
      | Plain c => first_old pairs (String c (stext l')) = None
      | Hit w n => w <> "" /\ first_old pairs (w ++ stext l') = Some (f n, stext l')
      end /\ reps_ok pairs f l'
  end.

Lemma replace_segs pairs f l : reps_ok pairs f l -> forall fuel, (String.length (stext l) <= fuel)%nat ->
  replace pairs fuel (stext l) = sout f l.
Proof.
  induction l as [|g l IH]; intros H fuel Hf; cbn in *.
  - now destruct fuel.
  - destruct H as [H1 H2]. rewrite slen_app in Hf.
    destruct g as [c|w n]; cbn in *.
    + destruct fuel; [lia|]. cbn. rewrite H1. f_equal. apply IH; auto. lia.
    + destruct H1 as [Hw H1]. destruct w as [|c w]; [congruence|].
      destruct fuel; [cbn in Hf; lia|]. cbn in *. rewrite H1. f_equal. apply IH; auto. lia.
Qed.

Lemma sout_nohits f l : hits l = [] -> sout f l = stext l.
Proof. induction l as [|[c|w n] l IH]; cbn; intros H; try discriminate; auto. now rewrite IH. Qed.

Definition dflt (E : env) ps n := match var_value E ps n with Some v => v | None => "" end.

Lemma var_pairs_some E ps ms : Forall (fun m => var_value E ps (snd m) <> None) ms ->
  var_pairs E ps ms = Some (map (fun m => (fst m, dflt E ps (snd m))) ms).
Proof.
  induction ms as [|[w n] ms IH]; intros H; cbn; auto. inversion H; subst. cbn in *.
  unfold dflt at 1. destruct (var_value E ps n); [|congruence]. now rewrite IH.
Qed.
Lemma var_pairs_none E ps ms : Exists (fun m => var_value E ps (snd m) = None) ms ->
  var_pairs E ps ms = None.
Proof.
  induction 1 as [[w n] ms H|[w n] ms H IH]; cbn in *; [now rewrite H|].
  destruct (var_value E ps n); auto. now rewrite IH.
Qed.

(** One pass over a text that is cut into segments. *)
Lemma var_pass_segs E ps m l : segs_ok m l ->
  (Forall (fun m => var_value E ps (snd m) <> None) (hits l) ->
   reps_ok (map (fun m => (fst m, dflt E ps (snd m))) (hits l)) (dflt E ps) l) ->
  var_pass E ps m (stext l) =
    (if forallb (fun m => match var_value E ps (snd m) with Some _ => true | None => false end) (hits l)
     then Some (sout (dflt E ps) l) else None).
Proof.
  intros Hs Hr. unfold var_pass. rewrite (find_all_segs m l Hs) by lia.
  destruct (hits l) as [|h hs] eqn:Eh.
  - cbn. now rewrite sout_nohits.
  - destruct (forallb _ _) eqn:Ef.
    + assert (HF : Forall (fun m => var_value E ps (snd m) <> None) (h :: hs)).
      { rewrite forallb_forall in Ef. apply Forall_forall. intros x Hx. specialize (Ef x Hx).
        destruct (var_value E ps (snd x)); congruence. }
      rewrite var_pairs_some by auto. f_equal. apply replace_segs; auto.
    + rewrite var_pairs_none; auto.
      destruct (Exists_dec (fun m => var_value E ps (snd m) = None) (h :: hs)) as [?|Hn]; auto.
      { intros x. destruct (var_value E ps (snd x)); [right|left]; congruence. }
      exfalso. apply Bool.not_true_iff_false in Ef. apply Ef. apply forallb_forall. intros x Hx.
      destruct (var_value E ps (snd x)) eqn:?; auto. exfalso. apply Hn. apply Exists_exists. eauto.
Qed.

(** ** Variables *)
Lemma var_value_meaning E ps v : var_ok v -> var_value E ps (var_name v) = meaning E ps v.
Proof.
  destruct v as [k|k|n]; intros H; unfold var_value; cbn [var_name meaning].
  - now rewrite strip_prefix_app.
  - rewrite strip_prefix_none, strip_prefix_app; auto. intros r Hr. cbn in Hr. discriminate.
  - unfold var_ok in H. rewrite !strip_prefix_none; auto; intros r Hr; destruct (H r) as [H1 H2]; congruence.
Qed.

(** ** Characters *)
Lemma is_space_white c : is_space c = true <-> white c.
Proof.
  unfold is_space, white. cbn [In]. rewrite !orb_true_iff, !Nat.eqb_eq.
  intuition (subst; auto).
Qed.
Lemma is_quote_quote c : is_quote c = true <-> quote c.
Proof. unfold is_quote, quote. cbn [In]. rewrite !orb_true_iff, !Nat.eqb_eq. intuition (subst; auto). Qed.
Lemma bare_char_spec c : bare_char c = true <-> ~ white c /\ ~ quote c.
Proof.
  unfold bare_char. rewrite negb_true_iff, orb_false_iff, <- is_space_white, <- is_quote_quote.
  destruct (is_space c), (is_quote c); intuition congruence.
Qed.
Lemma is_digit_digit c : is_digit c = true <-> digit c.
Proof. unfold is_digit, digit. cbn. rewrite andb_true_iff, !Nat.leb_le. tauto. Qed.
Lemma white_not_bare c : white c \/ quote c -> bare_char c = false.
Proof.
  intros H. destruct (bare_char c) eqn:E; auto. apply bare_char_spec in E. tauto.
Qed.

(** ** Plain text *)
Fixpoint plains (s : string) (l : list seg) : list seg :=
  match s with "" => l | String c s' => Plain c :: plains s' l end.
Lemma stext_plains s l : stext (plains s l) = s ++ stext l.
Proof. induction s; cbn; auto. now rewrite IHs. Qed.
Lemma hits_plains s l : hits (plains s l) = hits l.
Proof. induction s; cbn; auto. Qed.
Lemma sout_plains f s l : sout f (plains s l) = s ++ sout f l.
Proof. induction s; cbn; auto. now rewrite IHs. Qed.

Lemma brace_at_plain c s : c <> "$"%char -> brace_at (String c s) = None.
Proof. intros H. unfold brace_at. destruct s; auto. destruct (Ascii.eqb_spec c "$"); [congruence|]. auto. Qed.
Lemma bare_at_plain c s : c <> "$"%char -> bare_at (String c s) = None.
Proof. intros H. unfold bare_at. destruct (Ascii.eqb_spec c "$"); [congruence|]. auto. Qed.

(** ** First pass: braces *)
Fixpoint segs1 (l : list piece) : list seg :=
  match l with
  | [] => []
  | Lit s :: l' => plains s (segs1 l')
  | Brace v :: l' => Hit ("${" ++ var_name v ++ "}") (var_name v) :: segs1 l'
  | Bare v :: l' => plains ("$" ++ var_name v) (segs1 l')
  end.
Lemma stext_segs1 l : stext (segs1 l) = text l.
Proof.
  induction l as [|[s|v|v] l IH]; cbn; auto.
  - now rewrite stext_plains, IH.
  - now rewrite IH.
  - now rewrite stext_plains, IH.
Qed.

Lemma brace_at_hit n r : n <> "" -> every (fun c => c <> "}"%char) n ->
  brace_at ("${" ++ n ++ "}" ++ r) = Some ("${" ++ n ++ "}", n, r).
Proof.
  intros Hn H. cbn -[append]. replace ("${" ++ n ++ "}" ++ r) with (String "$" (String "{" (n ++ String "}" r))) by reflexivity.
  cbn. rewrite span_app; [|eapply every_impl; [|exact H]; intros c Hc; cbn beta in Hc; unfold not_close;
    destruct (Ascii.eqb_spec c "}"); [now subst|reflexivity]|reflexivity].
  destruct n; [congruence|]. reflexivity.
Qed.
Lemma brace_at_bare c s : c <> "{"%char -> brace_at (String "$" (String c s)) = None.
Proof. intros H. cbn. destruct (Ascii.eqb_spec c "{"); [congruence|]. auto. Qed.

Lemma segs_ok_plains m s l : every (fun c => forall t, m (String c t) = None) s ->
  segs_ok m l -> segs_ok m (plains s l).
Proof. induction s; cbn; auto. intros [H1 H2] H. split; auto. Qed.
Lemma reps_ok_plains ps f s l : every (fun c => forall t, first_old ps (String c t) = None) s ->
  reps_ok ps f l -> reps_ok ps f (plains s l).
Proof. induction s; cbn; auto. intros [H1 H2] H. split; auto. Qed.

Lemma bare_name_nd s : every bare_name_char s -> no_dollar s.
Proof. apply every_impl. unfold bare_name_char. tauto. Qed.

Lemma segs1_ok l : readable l -> segs_ok brace_at (segs1 l).
Proof.
  induction l as [|[s|v|v] l IH]; cbn [segs1 readable]; intros H; [exact I| | |].
  - apply segs_ok_plains; [|tauto]. eapply every_impl; [|apply H].
    intros c Hc t. now apply brace_at_plain.
  - cbn [segs_ok]. destruct H as ((Hv & Hn & Hc) & H). split; [split|].
    + discriminate.
    + rewrite !sapp_assoc. now apply brace_at_hit.
    + auto.
  - destruct H as ((Hv & Hn & Hc & Hd) & H). destruct (var_name v) as [|c n] eqn:En; [congruence|].
    cbn [append plains segs_ok stext seg_text]. destruct Hc as [Hc Hc'].
    split; [|split].
    + apply brace_at_bare. unfold bare_name_char in Hc. tauto.
    + apply brace_at_plain. unfold bare_name_char in Hc. tauto.
    + apply segs_ok_plains; auto. eapply every_impl; [|apply bare_name_nd, Hc'].
      intros; now apply brace_at_plain.
Qed.

Lemma first_old_none pairs s : Forall (fun p => strip_prefix (fst p) s = None) pairs ->
  first_old pairs s = None.
Proof. induction 1 as [|[o w] ps H Hs IH]; cbn in *; auto. now rewrite H. Qed.
(** The first old string at the start of [s] is [o] if all that are at the start equal [o]. *)
Lemma first_old_some pairs s o w r : In (o, w) pairs -> s = o ++ r ->
  (forall o' w' r', In (o', w') pairs -> s = o' ++ r' -> o' = o /\ w' = w) ->
  first_old pairs s = Some (w, r).
Proof.
  intros Hin Hs. induction pairs as [|[o1 w1] ps IH]; intros H; cbn; [easy|].
  destruct (strip_prefix o1 s) as [r1|] eqn:E.
  - apply strip_prefix_some in E. destruct (H o1 w1 r1) as [-> ->]; [now left|auto|].
    subst s. apply sapp_inj_l in E. congruence.
  - destruct Hin as [Hin|Hin].
    + inv Hin. now rewrite strip_prefix_app in E.
    + apply IH; auto. intros; eapply H; eauto. now right.
Qed.

Lemma in_hits_segs1 l w n : In (w, n) (hits (segs1 l)) ->
  exists v, In (Brace v) l /\ n = var_name v /\ w = "${" ++ n ++ "}".
Proof.
  induction l as [|[s|v|v] l IH]; cbn [segs1 hits]; intros H; [easy| | |].
  - rewrite hits_plains in H. destruct (IH H) as (v & ? & ?). exists v; split; auto; now right.
  - destruct H as [H|H].
    + inv H. exists v. split; [now left|auto].
    + destruct (IH H) as (u & ? & ?). exists u; split; auto; now right.
  - rewrite hits_plains in H. destruct (IH H) as (u & ? & ?). exists u; split; auto; now right.
Qed.
Lemma hits_segs1_in l v : In (Brace v) l ->
  In ("${" ++ var_name v ++ "}", var_name v) (hits (segs1 l)).
Proof.
  induction l as [|[s|u|u] l IH]; cbn [segs1 hits]; intros H; [easy| | |];
    destruct H as [H|H]; try discriminate.
  - rewrite hits_plains. auto.
  - inv H. now left.
  - right; auto.
  - rewrite hits_plains. auto.
Qed.

Lemma close_split a b c d : every (fun c => c <> "}"%char) a -> every (fun c => c <> "}"%char) b ->
  a ++ String "}" c = b ++ String "}" d -> a = b.
Proof.
  revert b; induction a as [|x a IH]; intros [|y b] Ha Hb H; cbn in *; auto.
  - inv H. destruct Hb. congruence.
  - inv H. destruct Ha. congruence.
  - inv H. f_equal. apply IH; tauto.
Qed.

Lemma readable_brace l v : readable l -> In (Brace v) l ->
  var_ok v /\ var_name v <> "" /\ every (fun c => c <> "}"%char) (var_name v).
Proof. induction l as [|p l IH]; cbn; intros H Hin; [easy|]. destruct Hin as [->|?]; tauto. Qed.

Lemma reps1_ok E ps l0 : readable l0 -> forall l, readable l -> incl l l0 ->
  reps_ok (map (fun m => (fst m, dflt E ps (snd m))) (hits (segs1 l0))) (dflt E ps) (segs1 l).
Proof.
  intros R0. set (pairs := map _ _).
  assert (Hp : forall o w, In (o, w) pairs -> exists v, In (Brace v) l0 /\
    o = "${" ++ var_name v ++ "}" /\ w = dflt E ps (var_name v)).
  { intros o w Hin. unfold pairs in Hin. apply in_map_iff in Hin as ([o' n] & Heq & Hin).
    inv Heq. apply in_hits_segs1 in Hin as (v & ? & -> & ->). eauto. }
  assert (Hpl : forall c t, c <> "$"%char -> first_old pairs (String c t) = None).
  { intros c t Hc. apply first_old_none. apply Forall_forall. intros [o w] Hin.
    destruct (Hp _ _ Hin) as (v & _ & -> & _). cbn.
    destruct c as [[] [] [] [] [] [] [] []]; cbn; auto; congruence. }
  induction l as [|[s|v|v] l IH]; cbn [segs1 readable]; intros H Hi; [exact I| | |].
  - apply reps_ok_plains; [|apply IH; [tauto|intros x Hx; apply Hi; now right]].
    eapply every_impl; [|apply H]. auto.
  - cbn [reps_ok]. destruct H as ((Hv & Hn & Hc) & H). split; [split|].
    + discriminate.
    + apply first_old_some with ("${" ++ var_name v ++ "}"); auto.
      * unfold pairs. apply in_map_iff. exists ("${" ++ var_name v ++ "}", var_name v).
        split; auto. apply hits_segs1_in, Hi. now left.
      * intros o' w' r' Hin Heq. destruct (Hp _ _ Hin) as (u & Hu & -> & ->).
        destruct (readable_brace _ _ R0 Hu) as (_ & _ & Hcu).
        rewrite !sapp_assoc in Heq. cbn in Heq. injection Heq as Heq.
        rewrite (close_split _ _ _ _ Hc Hcu Heq). auto.
    + apply IH; auto. intros x Hx; apply Hi; now right.
  - destruct H as ((Hv & Hn & Hc & Hd) & H).
    assert (Hi' : incl l l0) by (intros x Hx; apply Hi; now right).
    destruct (var_name v) as [|c n] eqn:En; [congruence|].
    cbn [append plains reps_ok stext seg_text]. destruct Hc as [Hc Hc'].
    split; [|split].
    + apply first_old_none. apply Forall_forall. intros [o w] Hin.
      destruct (Hp _ _ Hin) as (u & _ & -> & _). cbn. unfold bare_name_char in Hc.
      destruct c as [[] [] [] [] [] [] [] []]; cbn; auto; exfalso; tauto.
    + apply Hpl. unfold bare_name_char in Hc. tauto.
    + apply reps_ok_plains; auto. eapply every_impl; [|apply bare_name_nd, Hc']. auto.
Qed.

(** The pieces after the first pass. *)
Definition after1p (E : env) ps (p : piece) : piece :=
  match p with Brace v => Lit (dflt E ps (var_name v)) | _ => p end.
Definition after1 E ps (l : list piece) := map (after1p E ps) l.

Lemma sout_segs1 E ps l : sout (dflt E ps) (segs1 l) = text (after1 E ps l).
Proof.
  induction l as [|[s|v|v] l IH]; cbn; auto.
  - now rewrite sout_plains, IH.
  - now rewrite IH.
  - now rewrite sout_plains, IH.
Qed.

Definition is_some {A} (o : option A) := match o with Some _ => true | None => false end.
Definition brace_defined E ps (p : piece) : bool :=
  match p with Brace v => is_some (meaning E ps v) | _ => true end.
Definition bare_defined E ps (p : piece) : bool :=
  match p with Bare v => is_some (meaning E ps v) | _ => true end.

Lemma forallb_hits_segs1 E ps l : readable l ->
  forallb (fun m => match var_value E ps (snd m) with Some _ => true | None => false end) (hits (segs1 l))
  = forallb (brace_defined E ps) l.
Proof.
  induction l as [|[s|v|v] l IH]; cbn [segs1 hits readable forallb]; intros H; auto.
  - rewrite hits_plains, IH; tauto.
  - cbn. rewrite var_value_meaning by tauto. unfold is_some. f_equal. apply IH; tauto.
  - rewrite hits_plains, IH; tauto.
Qed.

Lemma pass1 E ps l : readable l ->
  var_pass E ps brace_at (text l) =
    if forallb (brace_defined E ps) l then Some (text (after1 E ps l)) else None.
Proof.
  intros R. rewrite <- stext_segs1, var_pass_segs.
  - now rewrite forallb_hits_segs1, sout_segs1.
  - now apply segs1_ok.
  - intros _. apply reps1_ok; auto. intros x; auto.
Qed.

(** ** Second pass: $name *)
Fixpoint no_brace (l : list piece) : Prop :=
  match l with [] => True | Brace _ :: _ => False | _ :: l' => no_brace l' end.

Fixpoint segs2 (l : list piece) : list seg :=
  match l with
  | [] => []
  | Lit s :: l' => plains s (segs2 l')
  | Brace v :: l' => segs2 l'
  | Bare v :: l' => Hit ("$" ++ var_name v) (var_name v) :: segs2 l'
  end.
Lemma stext_segs2 l : no_brace l -> stext (segs2 l) = text l.
Proof.
  induction l as [|[s|v|v] l IH]; cbn; intros H; auto; try easy.
  - now rewrite stext_plains, IH.
  - now rewrite IH.
Qed.

Lemma bare_at_hit n r : n <> "" -> every (fun c => bare_char c = true) n -> delimited r ->
  bare_at ("$" ++ n ++ r) = Some ("$" ++ n, n, r).
Proof.
  intros Hn H Hr. cbn. rewrite span_app; auto.
  - now destruct n.
  - destruct r; auto. now apply white_not_bare.
Qed.

Lemma bare_name_bare s : every bare_name_char s -> every (fun c => bare_char c = true) s.
Proof. apply every_impl. intros c H. apply bare_char_spec. unfold bare_name_char in H. tauto. Qed.

Lemma segs2_ok l : no_brace l -> readable l -> segs_ok bare_at (segs2 l).
Proof.
  induction l as [|[s|v|v] l IH]; cbn [segs2 readable no_brace]; intros B H; [exact I| |easy|].
  - apply segs_ok_plains; [|tauto]. eapply every_impl; [|apply H].
    intros c Hc t. now apply bare_at_plain.
  - cbn [segs_ok]. destruct H as ((Hv & Hn & Hc & Hd) & H). split; [split|auto].
    + discriminate.
    + rewrite sapp_assoc, stext_segs2 by auto. apply bare_at_hit; auto. now apply bare_name_bare.
Qed.

Lemma in_hits_segs2 l w n : In (w, n) (hits (segs2 l)) ->
  exists v, In (Bare v) l /\ n = var_name v /\ w = "$" ++ n.
Proof.
  induction l as [|[s|v|v] l IH]; cbn [segs2 hits]; intros H; [easy| | |].
  - rewrite hits_plains in H. destruct (IH H) as (v & ? & ?). exists v; split; auto; now right.
  - destruct (IH H) as (u & ? & ?). exists u; split; auto; now right.
  - destruct H as [H|H].
    + inv H. exists v. split; [now left|auto].
    + destruct (IH H) as (u & ? & ?). exists u; split; auto; now right.
Qed.
Lemma hits_segs2_in l v : In (Bare v) l -> In ("$" ++ var_name v, var_name v) (hits (segs2 l)).
Proof.
  induction l as [|[s|u|u] l IH]; cbn [segs2 hits]; intros H; [easy| | |];
    destruct H as [H|H]; try discriminate.
  - rewrite hits_plains. auto.
  - auto.
  - inv H. now left.
  - right; auto.
Qed.

Lemma readable_bare l v : readable l -> In (Bare v) l ->
  var_ok v /\ var_name v <> "" /\ every bare_name_char (var_name v).
Proof. induction l as [|p l IH]; cbn; intros H Hin; [easy|]. destruct Hin as [->|?]; tauto. Qed.

(** A name without delimiters at the start of [n ++ r], [r] delimited, is at the start of [n]. *)
Lemma delim_prefix n n' r r' : every bare_name_char n -> every bare_name_char n' -> delimited r ->
  n ++ r = n' ++ r' -> exists t, n = n' ++ t.
Proof.
  revert n'; induction n as [|x n IH]; intros [|y n'] H H' Hd Heq; cbn in *.
  - now exists "".
  - destruct r; [discriminate|]. inv Heq. cbn in Hd. destruct H' as [H' _]. unfold bare_name_char in H'.
    exfalso. destruct H' as (A & B & _). destruct Hd; auto.
  - eauto.
  - inv Heq. destruct (IH n') as [t ->]; try tauto. now exists t.
Qed.

Lemma reps2_ok E ps l0 : readable l0 -> prefix_free l0 ->
  forall l, no_brace l -> readable l -> incl l l0 ->
  reps_ok (map (fun m => (fst m, dflt E ps (snd m))) (hits (segs2 l0))) (dflt E ps) (segs2 l).
Proof.
  intros R0 PF. set (pairs := map _ _).
  assert (Hp : forall o w, In (o, w) pairs -> exists v, In (Bare v) l0 /\
    o = "$" ++ var_name v /\ w = dflt E ps (var_name v)).
  { intros o w Hin. unfold pairs in Hin. apply in_map_iff in Hin as ([o' n] & Heq & Hin).
    inv Heq. apply in_hits_segs2 in Hin as (v & ? & -> & ->). eauto. }
  assert (Hpl : forall c t, c <> "$"%char -> first_old pairs (String c t) = None).
  { intros c t Hc. apply first_old_none. apply Forall_forall. intros [o w] Hin.
    destruct (Hp _ _ Hin) as (v & _ & -> & _). cbn.
    destruct c as [[] [] [] [] [] [] [] []]; cbn; auto; congruence. }
  induction l as [|[s|v|v] l IH]; cbn [segs2 readable no_brace]; intros B H Hi; [exact I| |easy|].
  - apply reps_ok_plains; [|apply IH; [auto|tauto|intros x Hx; apply Hi; now right]].
    eapply every_impl; [|apply H]. auto.
  - cbn [reps_ok]. destruct H as ((Hv & Hn & Hc & Hd) & H). split; [split|].
    + discriminate.
    + apply first_old_some with ("$" ++ var_name v); auto.
      * unfold pairs. apply in_map_iff. exists ("$" ++ var_name v, var_name v).
        split; auto. apply hits_segs2_in, Hi. now left.
      * intros o' w' r' Hin Heq. destruct (Hp _ _ Hin) as (u & Hu & -> & ->).
        destruct (readable_bare _ _ R0 Hu) as (_ & _ & Hcu).
        rewrite !sapp_assoc in Heq. cbn in Heq. injection Heq as Heq.
        rewrite stext_segs2 in Heq by auto.
        destruct (delim_prefix _ _ _ _ Hc Hcu Hd Heq) as [t Ht].
        rewrite (PF u v t) in Ht; auto; [|apply Hi; now left].
        rewrite sapp_nil in Ht. rewrite Ht. auto.
    + apply IH; auto. intros x Hx; apply Hi; now right.
Qed.

Lemma sout_segs2 E ps l : readable l -> no_brace l ->
  forallb (bare_defined E ps) l = true -> expected E ps l = Some (sout (dflt E ps) (segs2 l)).
Proof.
  induction l as [|[s|v|v] l IH]; cbn [segs2 readable no_brace forallb expected]; intros R B D; auto; try easy.
  - rewrite sout_plains, IH; tauto.
  - apply andb_true_iff in D as [D1 D2]. cbn in D1. cbn [sout]. unfold dflt at 1.
    rewrite var_value_meaning by tauto. destruct (meaning E ps v); [|discriminate].
    rewrite IH; tauto.
Qed.
Lemma expected_none E ps l :
  forallb (brace_defined E ps) l && forallb (bare_defined E ps) l = false -> expected E ps l = None.
Proof.
  induction l as [|[s|v|v] l IH]; cbn [forallb expected brace_defined bare_defined]; intros D; [discriminate| | |].
  - now rewrite IH.
  - unfold is_some in D. destruct (meaning E ps v); auto. now rewrite IH.
  - unfold is_some in D. destruct (meaning E ps v); auto. cbn in D. now rewrite IH.
Qed.

Lemma forallb_hits_segs2 E ps l : readable l ->
  forallb (fun m => match var_value E ps (snd m) with Some _ => true | None => false end) (hits (segs2 l))
  = forallb (bare_defined E ps) l.
Proof.
  induction l as [|[s|v|v] l IH]; cbn [segs2 hits readable forallb]; intros H; auto.
  - rewrite hits_plains, IH; tauto.
  - cbn. apply IH; tauto.
  - cbn. rewrite var_value_meaning by tauto. unfold is_some. f_equal. apply IH; tauto.
Qed.

Lemma no_brace_defined E ps l : no_brace l -> forallb (brace_defined E ps) l = true.
Proof. induction l as [|[s|v|v] l IH]; cbn; auto; easy. Qed.

Lemma pass2 E ps l : readable l -> no_brace l -> prefix_free l ->
  var_pass E ps bare_at (text l) = expected E ps l.
Proof.
  intros R B PF. rewrite <- (stext_segs2 l B), var_pass_segs.
  - rewrite forallb_hits_segs2 by auto. destruct (forallb (bare_defined E ps) l) eqn:D.
    + symmetry. now apply sout_segs2.
    + symmetry. apply expected_none. now rewrite D, andb_false_r.
  - now apply segs2_ok.
  - intros _. apply reps2_ok; auto. intros x; auto.
Qed.

(** ** Both passes *)
Lemma no_brace_after E ps l : no_brace (after1 E ps l).
Proof. induction l as [|[s|v|v] l IH]; cbn; auto. Qed.

Lemma delimited_after E ps l : readable l -> delimited (text l) ->
  delimited (text (after1 E ps l)).
Proof.
  induction l as [|[s|v|v] l IH]; cbn [after1 map after1p text piece_text readable]; intros R H; auto.
  - destruct s; cbn in *; auto. apply IH; tauto.
  - cbn in H. exfalso. unfold white, quote in H. vm_compute in H. intuition discriminate.
Qed.

Lemma readable_after E ps l : readable l ->
  (forall v x, In (Brace v) l -> meaning E ps v = Some x -> no_dollar x) ->
  readable (after1 E ps l).
Proof.
  induction l as [|[s|v|v] l IH]; cbn [after1 map after1p readable]; intros R P; auto.
  - split; [tauto|]. apply IH; [tauto|]. intros v x Hin. apply P. now right.
  - split; [|apply IH; [tauto|]; intros u x Hin; apply P; now right].
    unfold dflt. rewrite var_value_meaning by tauto. destruct (meaning E ps v) eqn:M.
    + eapply P; eauto. now left.
    + exact I.
  - split; [|apply IH; [tauto|]; intros u x Hin; apply P; now right].
    destruct R as ((? & ? & ? & ?) & R). repeat split; auto. now apply delimited_after.
Qed.

Lemma bare_after E ps l v : In (Bare v) (after1 E ps l) -> In (Bare v) l.
Proof.
  unfold after1. rewrite in_map_iff. intros ([s|u|u] & H & Hin); try discriminate. inv H. auto.
Qed.

Lemma expected_after E ps l : readable l -> forallb (brace_defined E ps) l = true ->
  expected E ps (after1 E ps l) = expected E ps l.
Proof.
  induction l as [|[s|v|v] l IH]; cbn [after1 map after1p readable forallb expected]; intros R D; auto;
    try change (map (after1p E ps) l) with (after1 E ps l).
  - rewrite IH; tauto.
  - apply andb_true_iff in D as [D1 D2]. cbn in D1. unfold dflt.
    rewrite var_value_meaning by tauto. destruct (meaning E ps v); [|discriminate].
    rewrite IH; tauto.
  - rewrite IH; tauto.
Qed.

Lemma vars_text E ps l : readable l -> prefix_free l -> braces_plain E ps l ->
  vars E ps false (text l) = expected E ps l.
Proof.
  intros R PF BP. unfold vars. rewrite pass1 by auto.
  destruct (forallb (brace_defined E ps) l) eqn:D.
  - rewrite pass2.
    + rewrite expected_after by auto. now destruct (expected E ps l).
    + now apply readable_after.
    + apply no_brace_after.
    + intros v w t Hv Hw. apply PF; eapply bare_after; eauto.
  - symmetry. apply expected_none. now rewrite D.
Qed.

Lemma vars_true E ps s : vars E ps true s =
  match vars E ps false s with Some x => number_pass E x | None => None end.
Proof. unfold vars. destruct (var_pass _ _ _ s); auto. now destruct (var_pass _ _ _ s0). Qed.

Lemma vars_plain E ps s : no_dollar s -> vars E ps false s = Some s.
Proof.
  intros H. assert (Ht : text [Lit s] = s) by (cbn; apply sapp_nil).
  rewrite <- Ht at 1. rewrite vars_text.
  - cbn. now rewrite sapp_nil.
  - cbn. auto.
  - intros v w t Hv. cbn in Hv. destruct Hv as [Hv|Hv]; [discriminate|easy].
  - intros v x Hv. cbn in Hv. destruct Hv as [Hv|Hv]; [discriminate|easy].
Qed.

(** ** Numbers *)
Lemma human_at_nodigit s c : ~ digit c -> c <> ","%char -> human_at (String c s) = None.
Proof.
  intros H Hc. unfold human_at. cbn [span]. unfold digit_comma.
  destruct (is_digit c) eqn:D; [now apply is_digit_digit in D|].
  destruct (Ascii.eqb_spec c ","); [congruence|]. reflexivity.
Qed.

(** The run of digits and commas at the start of a text without digits is only commas. *)
Lemma strip_commas_nodigit s : no_digit s -> every (fun c => digit_comma c = true) s ->
  fst (strip_commas s) = "".
Proof.
  induction s as [|c s IH]; cbn; auto. intros [H1 H2] [H3 H4].
  destruct (strip_commas s) as [a b]. cbn in IH. rewrite IH by auto.
  unfold digit_comma in H3. destruct (is_digit c) eqn:D; [now apply is_digit_digit in D|].
  cbn in H3. now rewrite H3.
Qed.
Lemma span_true p s : every (fun c => p c = true) (fst (span p s)).
Proof.
  induction s as [|c s IH]; cbn; auto. destruct (p c) eqn:E; cbn; auto.
  destruct (span p s); cbn in *. auto.
Qed.
Lemma span_split p s : s = fst (span p s) ++ snd (span p s).
Proof.
  induction s as [|c s IH]; cbn; auto. destruct (p c); cbn; auto.
  destruct (span p s); cbn in *. now f_equal.
Qed.

Lemma human_at_none s : no_digit s -> human_at s = None.
Proof.
  intros H. unfold human_at. pose proof (span_true digit_comma s) as Ht.
  pose proof (span_split digit_comma s) as Hs. destruct (span digit_comma s) as [run r]. cbn in *.
  rewrite Hs in H. unfold no_digit in H. apply every_app in H as [H _].
  pose proof (strip_commas_nodigit run H Ht) as Hc. destruct (strip_commas run). cbn in Hc. now subst.
Qed.
Lemma find_human_none fuel s : no_digit s -> find_all human_at fuel s = [].
Proof.
  revert s; induction fuel; intros [|c s] H; cbn [find_all]; auto.
  rewrite human_at_none by auto. apply IHfuel. apply H.
Qed.

Lemma number_nodigit E s : no_digit s -> number_pass E s = Some s.
Proof. intros H. unfold number_pass. now rewrite find_human_none. Qed.

Lemma strip_commas_end a d : digit d -> strip_commas (a ++ String d "") = (a ++ String d "", "").
Proof.
  intros H. induction a as [|c a IH].
  - cbn. destruct (Ascii.eqb_spec d ","); auto. subst. exfalso. unfold digit in H. vm_compute in H. lia.
  - cbn [append strip_commas]. rewrite IH. destruct a; reflexivity.
Qed.
Lemma is_unit_spec c : is_unit c = true <->
  In c ["M"; "K"; "G"; "B"; "I"; "m"; "k"; "g"; "b"; "i"]%char.
Proof.
  unfold is_unit. rewrite existsb_exists. split.
  - intros (x & Hx & He). apply Ascii.eqb_eq in He. now subst.
  - intros H. exists c. split; auto. apply Ascii.eqb_refl.
Qed.
Lemma unit_not_digit c : is_unit c = true -> digit_comma c = false.
Proof.
  intros H. apply is_unit_spec in H. cbn in H.
  repeat (destruct H as [<-|H]; [reflexivity|]). easy.
Qed.

Lemma human_at_whole s : human_number s -> human_at s = Some (s, s, "").
Proof.
  intros (num & d & u & -> & Hd & Hn & Hu). unfold human_at.
  replace (num ++ String d u) with ((num ++ String d "") ++ u) by (rewrite sapp_assoc; reflexivity).
  rewrite span_app.
  - rewrite strip_commas_end by auto.
    destruct (num ++ String d "") as [|x xs] eqn:E; [destruct num; discriminate|].
    assert (Hs : span is_unit u = (u, "")).
    { rewrite <- (sapp_nil u) at 1. apply span_app; auto.
      eapply every_impl; [|exact Hu]. intros c. apply is_unit_spec. }
    now rewrite Hs.
  - apply every_app. split.
    + eapply every_impl; [|exact Hn]. intros c [Hc| ->]; unfold digit_comma; [|now rewrite orb_true_r].
      apply is_digit_digit in Hc. now rewrite Hc.
    + cbn. split; auto. unfold digit_comma. apply is_digit_digit in Hd. now rewrite Hd.
  - destruct u; auto. apply unit_not_digit. apply is_unit_spec, Hu.
Qed.
Lemma human_number_nonempty s : human_number s -> exists c t, s = String c t.
Proof. intros (num & d & u & -> & _). destruct num; cbn; eauto. Qed.
Lemma find_human_whole s : human_number s -> find_all human_at (String.length s) s = [(s, s)].
Proof.
  intros H. destruct (human_number_nonempty s H) as (c & t & ->).
  cbn [String.length find_all]. rewrite human_at_whole by auto. f_equal. now destruct (String.length t).
Qed.

Lemma all_digits_spec s : all_digits s = true <-> digits s.
Proof.
  unfold digits. induction s; cbn; [tauto|]. rewrite andb_true_iff, IHs, is_digit_digit. tauto.
Qed.

Lemma number_human E s : human_number s -> ~ digits s ->
  number_pass E s = option_map format_uint (e_parse_bytes E s).
Proof.
  intros H Hd. unfold number_pass. rewrite find_human_whole by auto. cbn [number_pairs].
  destruct (all_digits s) eqn:A; [now apply all_digits_spec in A|].
  destruct (e_parse_bytes E s) as [d|]; auto. cbn [option_map]. f_equal.
  destruct (human_number_nonempty s H) as (c & t & E1).
  assert (Hf : first_old [(s, format_uint d)] s = Some (format_uint d, "")).
  { cbn. assert (X : strip_prefix s s = Some "") by (rewrite <- (sapp_nil s) at 2; apply strip_prefix_app).
    now rewrite X. }
  rewrite E1 at 2 3. cbn [String.length replace]. rewrite <- E1, Hf.
  replace (replace _ _ "") with "" by (destruct (String.length t); reflexivity). apply sapp_nil.
Qed.

Lemma digits_human c s : digits (String c s) -> human_number (String c s).
Proof.
  revert c. induction s as [|x s IH]; intros c [H1 H2].
  - exists "", c, "". exact (conj eq_refl (conj H1 (conj I I))).
  - destruct (IH x H2) as (num & d & u & E & Hd & Hn & Hu).
    exists (String c num), d, u. rewrite E.
    refine (conj eq_refl (conj Hd (conj (conj (or_introl H1) Hn) Hu))).
Qed.
Lemma number_digits E s : digits s -> number_pass E s = Some s.
Proof.
  intros H. destruct s as [|c s]; [reflexivity|].
  unfold number_pass. rewrite find_human_whole by now apply digits_human. cbn [number_pairs].
  apply all_digits_spec in H. now rewrite H.
Qed.

(** format_uint gives digits. *)
Lemma string_of_uint_digits u : digits (DecimalString.NilEmpty.string_of_uint u).
Proof. unfold digits. induction u; cbn; auto; split; auto; unfold digit; vm_compute; lia. Qed.
Lemma format_uint_digits d : digits (format_uint d).
Proof.
  unfold format_uint, DecimalString.NilZero.string_of_uint.
  destruct (N.to_uint d); try apply string_of_uint_digits. cbn. unfold digit. split; [vm_compute; lia|exact I].
Qed.
