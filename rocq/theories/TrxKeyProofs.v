(** Proofs about data keys in SQL text: DataKeyPattern, replacement, RowScope. *)
From Coq Require Import Permutation.
From Verif Require Import Prelude ConfigModel ConfigSpec ConfigVarsProofs TrxModel TrxSpec.
#[local] Open Scope list_scope.
#[local] Open Scope string_scope.

(** ** Characters *)
Lemma key_char_spec c : key_char c = true <-> name_char c.
Proof.
  unfold key_char, is_word, name_char, letter, is_letter. rewrite !orb_true_iff, is_digit_digit, !Ascii.eqb_eq.
  rewrite !andb_true_iff, !Nat.leb_le. tauto.
Qed.
Lemma key_char_false c : ~ name_char c -> key_char c = false.
Proof. intros H. destruct (key_char c) eqn:E; auto. apply key_char_spec in E. tauto. Qed.
Lemma name_char_at : ~ name_char "@".
Proof. intros H. apply key_char_spec in H. discriminate. Qed.
Lemma name_char_paren : ~ name_char "(".
Proof. intros H. apply key_char_spec in H. discriminate. Qed.
Lemma every_key_char n : every name_char n -> every (fun c => key_char c = true) n.
Proof. intros H. eapply every_impl; [|exact H]. intros c. apply key_char_spec. Qed.

(** ** Matching keys *)
Lemma key_at_lit c s : ~ (c = "@"%char /\ starts name_char s) -> key_at (String c s) = None.
Proof.
  intros H. unfold key_at. destruct (Ascii.eqb_spec c "@"); auto. subst.
  destruct s as [|d s]; [reflexivity|]. cbn [starts] in H. cbn [span].
  rewrite key_char_false by tauto. reflexivity.
Qed.

Lemma key_at_call n r : n <> "" -> every name_char n ->
  key_at ("@" ++ n ++ "()" ++ r) = Some ("@" ++ n ++ "()", "@" ++ n ++ "()", r).
Proof.
  intros Hn He. cbn [append key_at]. rewrite Ascii.eqb_refl.
  rewrite span_app; [|now apply every_key_char|apply key_char_false, name_char_paren].
  destruct n; [congruence|]. reflexivity.
Qed.
Lemma key_at_plain n r : n <> "" -> every name_char n -> ~ starts name_char r -> (forall r', r <> "()" ++ r') ->
  key_at ("@" ++ n ++ r) = Some ("@" ++ n, "@" ++ n, r).
Proof.
  intros Hn He Hs Hr. cbn [append key_at]. rewrite Ascii.eqb_refl.
  rewrite span_app; [|now apply every_key_char|].
  - destruct n; [congruence|]. rewrite strip_prefix_none by auto. reflexivity.
  - destruct r; auto. apply key_char_false. exact Hs.
Qed.

(** The text as segments of the matcher. *)
Fixpoint segsk (l : list tok) : list seg :=
  match l with
  | [] => []
  | TLit s :: l' => plains s (segsk l')
  | TKey n c :: l' => Hit (tok_text (TKey n c)) (tok_text (TKey n c)) :: segsk l'
  end.
Lemma stext_segsk l : stext (segsk l) = sql l.
Proof. induction l as [|[s|n c] l IH]; cbn [segsk sql]; auto; [now rewrite stext_plains, IH|]. cbn [stext seg_text]. now rewrite IH. Qed.
Definition key_texts (l : list tok) : list string :=
  flat_map (fun t => match t with TLit _ => [] | TKey _ _ => [tok_text t] end) l.
Lemma hits_segsk l : map fst (hits (segsk l)) = key_texts l.
Proof. induction l as [|[s|n c] l IH]; cbn [segsk]; [reflexivity|now rewrite hits_plains, IH|]. cbn. now rewrite IH. Qed.

Lemma segsk_lit m s L rest : stext L = rest ->
  (forall c s', ~ (c = "@"%char /\ starts name_char s') -> m (String c s') = None) ->
  no_key s rest -> segs_ok m L -> segs_ok m (plains s L).
Proof.
  intros HL Hm. induction s as [|c s IH]; cbn [plains no_key]; auto. intros [H1 H2] H.
  cbn [segs_ok]. split; auto. rewrite stext_plains, HL. now apply Hm.
Qed.

Lemma segsk_ok l : clear l -> segs_ok key_at (segsk l).
Proof.
  induction l as [|[s|n c] l IH]; cbn [clear segsk]; [easy| |].
  - intros [H1 H2]. apply segsk_lit with (sql l); auto using stext_segsk, key_at_lit.
  - intros [(Hn & He & Hc) H2]. cbn [segs_ok]. split; auto. split; [discriminate|].
    rewrite stext_segsk. cbn [tok_text]. destruct c.
    + rewrite !sapp_assoc. now apply key_at_call.
    + rewrite !sapp_assoc. destruct (Hc eq_refl). change ("" ++ sql l) with (sql l).
      rewrite sapp_nil. now apply key_at_plain.
Qed.

Lemma find_keys_sql l : clear l -> find_keys (sql l) = key_texts l.
Proof.
  intros H. unfold find_keys. rewrite <- stext_segsk at 2. rewrite find_all_segs.
  - apply hits_segsk.
  - now apply segsk_ok.
  - rewrite stext_segsk. lia.
Qed.

(** ** Calls *)
Lemma has_call_app a : has_call (a ++ "()") = true.
Proof.
  induction a as [|c a IH]; [reflexivity|]. cbn [append].
  destruct c as [[] [] [] [] [] [] [] []]; cbn [has_call]; auto.
  destruct a as [|d a]; cbn [append]; auto.
  destruct d as [[] [] [] [] [] [] [] []]; auto. destruct a; auto.
Qed.
Lemma trim_call_app a : trim_call (a ++ "()") = a.
Proof.
  induction a as [|c a IH]; [reflexivity|]. cbn [append].
  assert (G : trim_call (String c (a ++ "()")) = String c (trim_call (a ++ "()"))).
  { destruct c as [[] [] [] [] [] [] [] []]; auto. destruct a as [|d a]; auto.
    cbn [append]. destruct d as [[] [] [] [] [] [] [] []]; auto. destruct a; auto. }
  now rewrite G, IH.
Qed.
Lemma no_call n : every name_char n -> has_call n = false /\ trim_call n = n.
Proof.
  induction n as [|c n IH]; [easy|]. intros [Hc Hn]. destruct (IH Hn) as [A B].
  assert (G : has_call (String c n) = has_call n /\ trim_call (String c n) = String c (trim_call n)).
  { destruct c as [[] [] [] [] [] [] [] []]; auto. now apply name_char_paren in Hc. }
  destruct G as [-> ->]. now rewrite B.
Qed.
Lemma no_call_at n : every name_char n -> has_call ("@" ++ n) = false /\ trim_call ("@" ++ n) = "@" ++ n.
Proof. intros H. apply no_call in H as [A B]. cbn. now rewrite A, B. Qed.

Lemma has_call_text n c : every name_char n -> has_call (tok_text (TKey n c)) = c.
Proof.
  intros H. cbn [tok_text]. destruct c.
  - rewrite <- sapp_assoc. apply has_call_app.
  - rewrite sapp_nil. now apply no_call_at.
Qed.
Lemma trim_call_text n c : every name_char n -> trim_call (tok_text (TKey n c)) = "@" ++ n.
Proof.
  intros H. cbn [tok_text]. destruct c.
  - rewrite <- sapp_assoc. apply trim_call_app.
  - rewrite sapp_nil. now apply no_call_at.
Qed.
Lemma calls_texts l : clear l -> calls (key_texts l) = key_calls l.
Proof.
  induction l as [|[s|n c] l IH]; cbn [clear key_texts key_calls flat_map]; [easy|tauto|].
  intros [(Hn & He & _) H]. cbn [app calls map]. rewrite has_call_text by auto. f_equal. now apply IH.
Qed.
Lemma trims_texts l : clear l -> map trim_call (key_texts l) = key_names l.
Proof.
  induction l as [|[s|n c] l IH]; cbn [clear key_texts key_names flat_map]; [easy|tauto|].
  intros [(Hn & He & _) H]. cbn [app map]. rewrite trim_call_text by auto. f_equal. now apply IH.
Qed.

(** ** Removing the parentheses *)
Definition uncall (t : tok) : tok := match t with TLit s => TLit s | TKey n _ => TKey n false end.

Definition hd_char (s : string) : option ascii := match s with "" => None | String c _ => Some c end.
Lemma hd_app a b : hd_char (a ++ b) = match a with "" => hd_char b | String c _ => Some c end.
Proof. now destruct a. Qed.
Lemma starts_hd P s t : hd_char s = hd_char t -> starts P s -> starts P t.
Proof. destruct s, t; cbn; intros H; inv H; auto. Qed.
Lemma hd_tok t t' l l' : match t, t' with TLit a, TLit b => a = b | TKey _ _, TKey _ _ => True | _, _ => False end ->
  hd_char (sql l) = hd_char (sql l') -> hd_char (sql (t :: l)) = hd_char (sql (t' :: l')).
Proof.
  destruct t, t'; cbn [sql tok_text]; intros H Hl; try easy. subst. rewrite !hd_app. now destruct s0.
Qed.
Lemma hd_uncall l : hd_char (sql (map uncall l)) = hd_char (sql l).
Proof. induction l as [|[s|n c] l IH]; [reflexivity| |]; cbn [map uncall]; apply hd_tok; auto. Qed.

Lemma no_key_hd s a b : hd_char a = hd_char b -> no_key s a -> no_key s b.
Proof.
  intros H. induction s as [|c s IH]; cbn [no_key]; auto. intros [A B]. split; auto.
  intros [-> D]. apply A. split; auto. revert D. apply starts_hd. rewrite !hd_app. now destruct s.
Qed.

Lemma strip_calls_names n r fuel : every name_char n -> (String.length n <= fuel)%nat ->
  strip_calls fuel (n ++ r) = n ++ strip_calls (fuel - String.length n) r.
Proof.
  revert fuel; induction n as [|c n IH]; intros fuel Hn Hf.
  - cbn. now rewrite Nat.sub_0_r.
  - destruct Hn as [Hc Hn]. cbn in Hf. destruct fuel; [lia|]. cbn [append strip_calls].
    rewrite key_at_lit; [|intros [-> _]; now apply name_char_at in Hc].
    rewrite IH by (auto; lia). cbn [String.length]. now rewrite Nat.sub_succ.
Qed.
Lemma strip_calls_lit s r fuel : no_key s r -> (String.length s <= fuel)%nat ->
  strip_calls fuel (s ++ r) = s ++ strip_calls (fuel - String.length s) r.
Proof.
  revert fuel; induction s as [|c s IH]; intros fuel Hn Hf.
  - cbn. now rewrite Nat.sub_0_r.
  - destruct Hn as [Hc Hn]. cbn in Hf. destruct fuel; [lia|]. cbn [append strip_calls].
    rewrite key_at_lit by auto. rewrite IH by (auto; lia). cbn [String.length]. now rewrite Nat.sub_succ.
Qed.
Lemma strip_calls_sql l : clear l -> forall fuel, (String.length (sql l) <= fuel)%nat ->
  strip_calls fuel (sql l) = sql (map uncall l).
Proof.
  induction l as [|[s|n c] l IH]; intros H fuel Hf.
  - now destruct fuel.
  - destruct H as [H1 H2]. cbn [sql tok_text map uncall] in *. rewrite slen_app in Hf.
    rewrite strip_calls_lit by (auto; lia). rewrite IH; auto. lia.
  - destruct H as [(Hn & He & Hc) H2]. cbn [sql tok_text map uncall] in *.
    destruct c.
    + rewrite !sapp_assoc. rewrite !slen_app in Hf. cbn in Hf.
      destruct fuel; [lia|]. change ("@" ++ n ++ "()" ++ sql l) with (String "@" (n ++ "()" ++ sql l)).
      cbn [strip_calls]. change (String "@" (n ++ "()" ++ sql l)) with ("@" ++ n ++ "()" ++ sql l).
      rewrite key_at_call by auto. rewrite <- (sapp_assoc "@" n "()"), has_call_app, trim_call_app.
      rewrite IH by (auto; lia). now rewrite sapp_assoc.
    + rewrite !sapp_assoc. rewrite !slen_app in Hf. cbn in Hf. change ("" ++ sql l) with (sql l).
      destruct fuel; [lia|]. change ("@" ++ n ++ sql l) with (String "@" (n ++ sql l)).
      cbn [strip_calls]. change (String "@" (n ++ sql l)) with ("@" ++ n ++ sql l).
      destruct (Hc eq_refl) as [H3 H4]. rewrite key_at_plain by auto.
      destruct (no_call_at n He) as [-> _]. rewrite strip_calls_names by (auto; lia).
      rewrite IH by (auto; lia). reflexivity.
Qed.

(** ** Every text has such tokens *)
Lemma name_char_dec c : {name_char c} + {~ name_char c}.
Proof.
  destruct (key_char c) eqn:E; [left; now apply key_char_spec|right].
  intros H. apply key_char_spec in H. congruence.
Qed.
Lemma span_name s : exists n r, s = n ++ r /\ every name_char n /\ ~ starts name_char r.
Proof.
  induction s as [|c s IH]; [exists "", ""; cbn; tauto|].
  destruct (name_char_dec c) as [Hc|Hc].
  - destruct IH as (n & r & -> & Hn & Hr). exists (String c n), r. cbn. tauto.
  - exists "", (String c s). cbn. tauto.
Qed.
Lemma tokens_exist s : exists l, sql l = s /\ clear l.
Proof.
  remember (String.length s) as k eqn:Ek. assert (Hk : (String.length s <= k)%nat) by lia. clear Ek.
  revert s Hk. induction k as [|k IH]; intros s Hk.
  - destruct s; [|cbn in Hk; lia]. exists []. cbn. auto.
  - destruct s as [|c s]; [exists []; cbn; auto|]. cbn in Hk.
    destruct (ascii_dec c "@") as [->|Hc].
    + destruct (span_name s) as (n & r & -> & Hn & Hr). rewrite slen_app in Hk.
      destruct n as [|d n].
      * destruct (IH r) as (l & Hl & Hcl); [cbn in Hk; lia|].
        exists (TLit "@" :: l). cbn [sql tok_text append clear no_key]. rewrite Hl. tauto.
      * destruct (strip_prefix "()" r) as [r'|] eqn:Er.
        -- apply strip_prefix_some in Er. subst r. cbn in Hk. destruct (IH r') as (l & Hl & Hcl); [lia|].
           exists (TKey (String d n) true :: l). cbn [sql tok_text clear]. rewrite Hl. split.
           ++ now rewrite !sapp_assoc.
           ++ repeat split; auto; discriminate || apply Hn.
        -- destruct (IH r) as (l & Hl & Hcl); [lia|].
           exists (TKey (String d n) false :: l). cbn [sql tok_text clear]. rewrite Hl. split.
           ++ now rewrite !sapp_assoc.
           ++ split; [|auto]. split; [discriminate|]. split; [auto|]. intros _. split; auto.
              intros r' ->. rewrite strip_prefix_app in Er. discriminate.
    + destruct (IH s) as (l & Hl & Hcl); [lia|].
      exists (TLit (String c "") :: l). cbn [sql tok_text append clear no_key]. rewrite Hl. tauto.
Qed.

(** ** Replacing keys *)
Fixpoint segsf (l : list tok) : list seg :=
  match l with
  | [] => []
  | TLit s :: l' => plains s (segsf l')
  | TKey n c :: l' => Hit ("@" ++ n) ("@" ++ n) :: segsf l'
  end.
Lemma stext_segsf l : stext (segsf l) = sql (map uncall l).
Proof.
  induction l as [|[s|n c] l IH]; cbn [segsf sql map uncall]; auto; [now rewrite stext_plains, IH|].
  cbn [stext seg_text tok_text]. now rewrite IH, sapp_nil.
Qed.

Lemma app_split a x b y : a ++ x = b ++ y -> (exists t, a = b ++ t) \/ (exists t, b = a ++ t).
Proof.
  revert b; induction a as [|c a IH]; intros b H; [right; exists b; auto|].
  destruct b as [|d b]; [left; exists (String c a); auto|]. cbn in H. injection H as -> H.
  destruct (IH b H) as [[t ->]|[t ->]]; [left|right]; exists t; auto.
Qed.

Definition key_shape (k : string) : Prop := exists n, k = "@" ++ n /\ n <> "" /\ every name_char n.

Lemma reps_lit pairs f s L rest : stext L = rest -> Forall (fun p => key_shape (fst p)) pairs ->
  no_key s rest -> reps_ok pairs f L -> reps_ok pairs f (plains s L).
Proof.
  intros HL Hp. induction s as [|c s IH]; cbn [plains no_key]; auto. intros [H1 H2] H.
  cbn [reps_ok]. split; auto. rewrite stext_plains, HL. apply first_old_none.
  eapply Forall_impl; [|exact Hp]. intros [o w] (n & Ho & Hn & He). cbn in Ho. subst. cbn [fst].
  apply strip_prefix_none. intros r Hr. cbn in Hr. injection Hr as -> Hr. apply H1. split; auto.
  rewrite Hr. destruct n; [congruence|]. apply He.
Qed.

Lemma reps_segsf pairs f l0 l : incl (key_names l) (key_names l0) -> clear l ->
  Forall (fun p => key_shape (fst p)) pairs ->
  keys_prefix_free (key_names l0) ->
  (forall k v, In (k, v) pairs -> In k (key_names l0) /\ v = f k) ->
  (forall k, In k (key_names l0) -> In (k, f k) pairs) ->
  reps_ok pairs f (segsf l).
Proof.
  intros Hi Hc Hs PF P1 P2. revert Hi Hc. induction l as [|[s|n c] l IH]; intros Hi Hc; cbn [segsf]; [exact I| |].
  - destruct Hc as [H1 H2]. apply reps_lit with (sql (map uncall l)); auto using stext_segsf.
    apply no_key_hd with (sql l); auto. symmetry. apply hd_uncall.
  - destruct Hc as [(Hn & He & _) H2]. cbn [reps_ok]. split; [split; [discriminate|]|].
    + apply first_old_some with ("@" ++ n); auto.
      * apply P2, Hi. now left.
      * intros o' w' r' Hin Heq. destruct (P1 _ _ Hin) as [Hk ->].
        assert (Hn0 : In ("@" ++ n) (key_names l0)) by (apply Hi; now left).
        destruct (app_split _ _ _ _ Heq) as [[t Ht]|[t Ht]].
        -- assert (t = "") by (apply (PF o' ("@" ++ n) t); auto). subst t. rewrite sapp_nil in Ht. rewrite <- Ht. auto.
        -- assert (t = "") by (apply (PF ("@" ++ n) o' t); auto). subst t. rewrite sapp_nil in Ht. rewrite Ht. auto.
    + apply IH; auto. intros x Hx. apply Hi. now right.
Qed.

Fixpoint subst_keys (f : string -> string) (l : list tok) : string :=
  match l with
  | [] => ""
  | TLit s :: l' => s ++ subst_keys f l'
  | TKey n _ :: l' => f ("@" ++ n) ++ subst_keys f l'
  end.
Lemma sout_segsf f l : sout f (segsf l) = subst_keys f l.
Proof. induction l as [|[s|n c] l IH]; cbn [segsf]; auto; [now rewrite sout_plains, IH|]. cbn [sout subst_keys]. now rewrite IH. Qed.

Lemma replace_sql pairs f l : clear l -> keys_prefix_free (key_names l) ->
  Forall (fun p => key_shape (fst p)) pairs ->
  (forall k v, In (k, v) pairs -> In k (key_names l) /\ v = f k) ->
  (forall k, In k (key_names l) -> In (k, f k) pairs) ->
  replace pairs (String.length (sql (map uncall l))) (sql (map uncall l)) = subst_keys f l.
Proof.
  intros Hc PF Hs P1 P2. rewrite <- (stext_segsf l), <- sout_segsf. apply replace_segs; [|lia].
  apply reps_segsf with l; auto. intros x; auto.
Qed.

Lemma clear_shape l k : clear l -> In k (key_names l) -> key_shape k.
Proof.
  induction l as [|[s|n c] l IH]; cbn [clear key_names]; [easy|tauto|].
  intros [(Hn & He & _) H] [<-|Hk]; [|auto]. exists n. auto.
Qed.

(** ** RowScope *)
Fixpoint call_first (k : string) (l : list tok) : list tok :=
  match l with
  | [] => []
  | TLit s :: l' => TLit s :: call_first k l'
  | TKey n c :: l' => if String.eqb ("@" ++ n) k then TKey n true :: l' else TKey n c :: call_first k l'
  end.

Lemma hd_call_first k l : hd_char (sql (call_first k l)) = hd_char (sql l).
Proof.
  induction l as [|[s|n c] l IH]; [reflexivity| |]; cbn [call_first].
  - apply hd_tok; auto.
  - destruct (String.eqb _ _); apply hd_tok; auto.
Qed.
Lemma key_names_call_first k l : key_names (call_first k l) = key_names l.
Proof. induction l as [|[s|n c] l IH]; cbn [call_first key_names]; auto. destruct (String.eqb _ _); cbn [key_names]; congruence. Qed.
Lemma call_paren l r k : sql (call_first k l) = "()" ++ r -> exists r', sql l = "()" ++ r'.
Proof.
  assert (G : forall l, match l with TKey _ _ :: _ => False | _ => True end \/ exists t, sql l = String "@" t).
  { intros [|[s|n c] l']; auto. right. cbn. eauto. }
  revert r. induction l as [|[s|n c] l IH]; cbn [call_first sql]; [easy| |].
  - cbn [tok_text]. destruct s as [|a [|b s]]; cbn [append].
    + apply IH.
    + intros r H. injection H as -> H. exists (match sql l with String _ t => t | "" => "" end).
      pose proof (hd_call_first k l) as Hh. rewrite H in Hh. cbn in Hh.
      destruct (sql l) as [|d t]; [discriminate|]. cbn in Hh. injection Hh as <-. reflexivity.
    + intros r H. injection H as -> -> H. exists (s ++ sql l). reflexivity.
  - destruct (String.eqb _ _); cbn; discriminate.
Qed.
Lemma clear_call_first k l : clear l -> clear (call_first k l).
Proof.
  induction l as [|[s|n c] l IH]; cbn [call_first]; [auto| |].
  - intros [H1 H2]. cbn [clear]. split; auto. apply no_key_hd with (sql l); auto. symmetry. apply hd_call_first.
  - intros [(Hn & He & Hc) H2]. destruct (String.eqb _ _); cbn [clear].
    + repeat split; auto; discriminate.
    + split; auto. split; [auto|]. split; [auto|]. intros E. destruct (Hc E) as [A B]. split.
      * intros X. apply A. revert X. apply starts_hd. apply hd_call_first.
      * intros r X. apply call_paren in X as [r' X]. now apply B in X.
Qed.

Lemma replace_first_skip old new a b :
  (forall x y, a = x ++ y -> y <> "" -> forall r, y ++ b <> old ++ r) ->
  replace_first old new (a ++ b) = a ++ replace_first old new b.
Proof.
  induction a as [|c a IH]; intros H; [reflexivity|].
  cbn [append]. cbn [replace_first]. rewrite strip_prefix_none.
  - f_equal. apply IH. intros x y -> Hy. apply (H (String c x) y); auto.
  - intros r Hr. now apply (H "" (String c a)) in Hr.
Qed.

(** The first place where the text "@n" occurs is the first key @n. *)
Lemma replace_first_sql n l : n <> "" -> every name_char n -> clear l ->
  keys_prefix_free (("@" ++ n) :: key_names l) ->
  (exists l1 l2, l = (l1 ++ TKey n false :: l2)%list /\ ~ In ("@" ++ n) (key_names l1)) ->
  replace_first ("@" ++ n) ("@" ++ n ++ "()") (sql l) = sql (call_first ("@" ++ n) l).
Proof.
  intros Hn He. induction l as [|[s|m c] l IH]; intros Hc PF (l1 & l2 & El & Hl1).
  - destruct l1; discriminate.
  - destruct l1 as [|t l1]; [discriminate|]. injection El as <- El.
    destruct Hc as [H1 H2]. cbn [sql call_first tok_text].
    rewrite replace_first_skip.
    + f_equal. apply IH; auto. exists l1, l2. auto.
    + intros x y -> Hy r Hr. destruct y as [|a y]; [congruence|]. cbn in Hr. injection Hr as -> Hr.
      clear -H1 Hr Hn He. induction x as [|d x IHx]; cbn [append no_key] in H1; [|tauto].
      apply H1. split; auto. rewrite Hr. destruct n; [congruence|]. apply He.
  - destruct Hc as [(Hm & Hme & Hcc) H2]. cbn [sql call_first].
    destruct (String.eqb_spec ("@" ++ m) ("@" ++ n)) as [E|E].
    + cbn in E. injection E as ->. destruct l1 as [|t l1].
      * injection El as -> El. clear l2 El. cbn [sql tok_text]. rewrite sapp_nil, !sapp_assoc.
        change ("@" ++ n ++ sql l) with (String "@" (n ++ sql l)). cbn [replace_first].
        change (String "@" (n ++ sql l)) with (("@" ++ n) ++ sql l).
        rewrite strip_prefix_app. cbn. now rewrite sapp_assoc.
      * injection El as <- El. exfalso. apply Hl1. cbn. auto.
    + destruct l1 as [|t l1]; [injection El as -> _ _; congruence|]. injection El as <- El.
      assert (Hl1' : ~ In ("@" ++ n) (key_names l1)) by (intros X; apply Hl1; now right).
      cbn [sql]. rewrite replace_first_skip.
      * f_equal. apply IH; auto.
        -- intros a b t Ha Hb. apply PF; cbn in *; tauto.
        -- exists l1, l2. auto.
      * intros x y Hxy Hy r Hr.
        assert (Hx : x = "").
        { destruct x as [|d x]; auto. exfalso. cbn [tok_text append] in Hxy. injection Hxy as _ Hxy.
          destruct y as [|a y]; [congruence|]. cbn in Hr. injection Hr as -> Hr.
          assert (Hat : every (fun c => c <> "@"%char) (m ++ (if c then "()" else ""))).
          { apply every_app. split.
            - eapply every_impl; [|exact Hme]. intros b Hb ->. now apply name_char_at in Hb.
            - destruct c; cbn; repeat split; discriminate. }
          rewrite Hxy in Hat. apply every_app in Hat as [_ [Hat _]]. congruence. }
        subst x. cbn in Hxy. subst y. cbn [tok_text] in Hr.
        assert (PFm : forall a b t, In a ["@" ++ n; "@" ++ m] -> In b ["@" ++ n; "@" ++ m] -> b = a ++ t -> t = "").
        { intros a b t Ha Hb. apply PF; cbn in *; tauto. }
        cbn in Hr. injection Hr as Hr. rewrite sapp_assoc in Hr.
        destruct (app_split _ _ _ _ Hr) as [[t Ht]|[t Ht]].
        -- assert (t = "") by (apply (PFm ("@" ++ n) ("@" ++ m) t); cbn; subst; auto).
           subst t. rewrite sapp_nil in Ht. congruence.
        -- assert (t = "") by (apply (PFm ("@" ++ m) ("@" ++ n) t); cbn; subst; auto).
           subst t. rewrite sapp_nil in Ht. congruence.
Qed.
