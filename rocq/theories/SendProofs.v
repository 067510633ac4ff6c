(** Proofs about the text of queries. *)
From Coq Require Import Permutation DecimalN DecimalFacts DecimalString.
From Verif Require Import Prelude ConfigModel ConfigSpec ConfigVarsProofs ConfigProofs TrxModel TrxSpec TrxProofs TrxStmtProofs
  TrxCsvProofs TrxCopyProofs TrxLineProofs TrxSentProofs PipeModel PipeProofs PipeKeyProofs PipeRunProofs.
From Verif Require Import DataModel DataSpec DataKeyProofs SendModel SendSpec.
From Verif Require ReportModel GenModel StmtModel EndSpec ScopeModel WorkloadModel WorkloadSpec.
#[local] Open Scope string_scope.
#[local] Open Scope list_scope.

(** ** Numbers *)
Lemma acc_digits d : forall acc, digits_value (Npos acc) (NilEmpty.string_of_uint d) = Some (Npos (Pos.of_uint_acc d acc)).
Proof.
  induction d; intros acc; cbn [NilEmpty.string_of_uint digits_value Pos.of_uint_acc]; [reflexivity|..];
    rewrite <- IHd;
    match goal with |- context [is_digit ?c] => change (is_digit c) with true end; cbn iota; f_equal;
    match goal with |- context [nat_of_ascii ?c - 48] => let x := eval vm_compute in (N.of_nat (nat_of_ascii c - 48)) in change (N.of_nat (nat_of_ascii c - 48)) with x end; lia.
Qed.
Lemma all_digits_value d : digits_value 0 (NilEmpty.string_of_uint d) = Some (N.of_uint d).
Proof.
  unfold N.of_uint.
  induction d; cbn [NilEmpty.string_of_uint digits_value Pos.of_uint]; [reflexivity|exact IHd|..]; apply acc_digits.
Qed.
Lemma to_uint_norm n : N.to_uint n = Decimal.unorm (N.to_uint n).
Proof. rewrite <- (DecimalN.Unsigned.of_to n) at 1. apply DecimalN.Unsigned.to_of. Qed.
Lemma format_short n : short_decimal (format_uint n) n.
Proof.
  assert (NN : N.to_uint n <> Decimal.Nil).
  { rewrite to_uint_norm. apply unorm_nonnil. }
  assert (E : format_uint n = NilEmpty.string_of_uint (N.to_uint n)) by (unfold format_uint; destruct (N.to_uint n); [congruence|reflexivity..]).
  rewrite E. split.
  - pose proof (all_digits_value (N.to_uint n)) as V. rewrite DecimalN.Unsigned.of_to in V.
    destruct (NilEmpty.string_of_uint (N.to_uint n)) as [|c s] eqn:S.
    { destruct (N.to_uint n); [congruence|discriminate..]. }
    cbn [digits_value] in V. destruct (is_digit c) eqn:D; [|discriminate]. apply is_digit_digit in D.
    apply digits_value_decimal with (p := String c "") in V; [exact V|]. apply (dec_one c D).
  - intros r R. rewrite to_uint_norm in R. unfold Decimal.unorm in R. pose proof (nzhead_nonzero (N.to_uint n)) as Z.
    destruct (Decimal.nzhead (N.to_uint n)) as [|u|u|u|u|u|u|u|u|u|u]; cbn in R; try discriminate R.
    + now injection R as <-.
    + now specialize (Z u).
Qed.
Lemma int_text_ok z : int_text_of z (int_text z).
Proof.
  unfold int_text. destruct (Z.ltb_spec z 0); [apply ItNeg|apply ItPos]; auto using format_short.
Qed.

(** ** Sprintf of values *)
Definition verb (k : vkind) : ascii := match k with KNumber => "d" | KText => "s" | KSaved => "v" end.
Definition fmt_of (q : string) (k : vkind) : string := q ++ String "%" (String (verb k) q).

Lemma print_kind k x : is_kind k x -> exists t, text_of x t /\ print (verb k) (Some x) = Some t.
Proof.
  destruct k, x as [z|n|s|[|z|s]]; cbn [is_kind]; try contradiction; intros _; cbn;
    eexists; (split; [|reflexivity]); constructor; auto using int_text_ok, format_short.
Qed.

Lemma sprint_char c t vals : c <> "%"%char -> sprint (String c t) vals = option_map (String c) (sprint t vals).
Proof. intros N. destruct c as [[] [] [] [] [] [] [] []]; try reflexivity. now destruct N. Qed.
Lemma sprint_lit s t vals : no_percent s -> sprint (s ++ t) vals = option_map (append s) (sprint t vals).
Proof.
  induction s as [|c s IH]; cbn [append]; intros N.
  - destruct (sprint t vals); reflexivity.
  - destruct N as [N1 N2]. rewrite sprint_char by auto. rewrite IH by auto. rewrite option_map_map. reflexivity.
Qed.
Lemma sprint_value q k t x p vals : no_percent q -> print (verb k) (Some x) = Some p ->
  sprint (fmt_of q k ++ t) (Some x :: vals) = option_map (fun s => (q ++ p ++ q ++ s)%string) (sprint t vals).
Proof.
  intros Nq Pp. unfold fmt_of. rewrite sapp_assoc, sprint_lit by auto.
  change (String "%" (String (verb k) q) ++ t)%string with (String "%" (String (verb k) (q ++ t))).
  replace (sprint (String "%" (String (verb k) (q ++ t))) (Some x :: vals)) with (option_map (append p) (sprint (q ++ t) vals)).
  - rewrite sprint_lit by auto. rewrite !option_map_map. reflexivity.
  - destruct k; cbn [verb] in *; cbn [sprint]; rewrite Pp; reflexivity.
Qed.

Lemma sprint_sent quote kind F l : forall last xs,
  (forall s, In (TLit s) l -> no_percent s) ->
  (forall k, In k (key_names l) /\ k <> "@PREV" \/ In k (prevs last l) -> no_percent (quote k) /\ F k = fmt_of (quote k) (kind k)) ->
  kinds kind last (key_names l) xs ->
  exists texts, Forall2 text_of xs texts /\ sprint (filled F last l) (map Some xs) = Some (sent quote quote last l texts).
Proof.
  induction l as [|[s|n c] l IH]; intros last xs L P K.
  - destruct xs; [|contradiction]. exists []. split; [constructor|reflexivity].
  - cbn [filled sent key_names prevs] in *. destruct (IH last xs) as (ts & A & B); auto.
    { intros; apply L; now right. }
    exists ts. split; [auto|]. rewrite sprint_lit by (apply L; left; auto). now rewrite B.
  - cbn [filled sent key_names prevs] in *. destruct xs as [|x xs]; [contradiction|].
    assert (L' : forall s, In (TLit s) l -> no_percent s) by (intros; apply L; now right).
    cbn [kinds] in K. cbv zeta in K.
    assert (EQ : String.eqb ("@" ++ n) "@PREV" = String.eqb n "PREV") by reflexivity. rewrite EQ in K.
    destruct K as [K1 K2]. destruct (print_kind _ _ K1) as (t & T1 & T2). cbn [map].
    destruct (String.eqb_spec n "PREV") as [->|NP].
    + destruct (IH last xs) as (ts & A & B); auto.
      { intros k [[X1 X2]|X]; apply P; [left; split; [now right|auto]|right; now right]. }
      exists (t :: ts). split; [now constructor|]. destruct (P last) as [Q ->]; [right; now left|].
      rewrite (sprint_value _ _ _ _ t) by auto. rewrite B. reflexivity.
    + destruct (IH ("@" ++ n)%string xs) as (ts & A & B); auto.
      { intros k [[X1 X2]|X]; apply P; [left; split; [now right|auto]|right; auto]. }
      exists (t :: ts). split; [now constructor|].
      destruct (P ("@" ++ n)%string) as [Q ->]; [left; split; [now left|intros E; apply NP; now injection E]|].
      rewrite (sprint_value _ _ _ _ t) by auto. rewrite B. reflexivity.
Qed.

(** ** Saved columns *)
Definition same_params (cfg D : smap data) : Prop := forall n, plain_name n -> option_map d_params (sget n D) = option_map d_params (sget n cfg).
Definition col_params (cfg : smap data) (n : string) : smap string :=
  match sget (cfg_key n) cfg with Some d => d_params d | None => [] end.

Lemma csv_keys_same cfg ks : forall data0 acc acc' data', csv_keys ks data0 acc = Some (acc', data') ->
  same_params cfg data0 -> same_params cfg data'.
Proof.
  induction ks as [|k ks IH]; intros data0 acc acc' data' H F; cbn [csv_keys] in H; [now injection H as _ <-|].
  cbv zeta in H. destruct (sget (cfg_key k) data0) as [d|] eqn:E; [|discriminate]. eapply IH; [exact H|].
  destruct (String.eqb_spec (d_scope d) ""); [|auto].
  intros n Hn. rewrite sget_sset. destruct (String.eqb_spec n (cfg_key k)); [|auto]. subst n. rewrite <- F by auto. now rewrite E.
Qed.

Section cols.
  Context (T : tenv) (name : string) (keys0 : smap key) (cfg : smap data).
  Definition col_ok (f : fstate) : Prop :=
    (forall n k, n <> "_" -> sget n (f_keys f) = Some k -> sget n keys0 = Some k \/ k_col k = None \/
       te_make T "column" n (col_params cfg n) = Some (k_fmt k)) /\
    same_params cfg (f_data f).

  Lemma column_col f i c o f1 : column T name f i c = Some (o, f1) -> col_ok f -> col_ok f1.
  Proof.
    unfold column. cbv zeta. intros H [A B].
    destruct (String.eqb _ noop_column).
    - destruct (sget noop_column (f_keys f)); injection H as _ <-; [split; auto|]. split; cbn [f_keys f_data]; [|auto].
      intros n k Hn Hk. rewrite sget_sset in Hk. destruct (String.eqb_spec n noop_column); [subst n; now destruct Hn|auto].
    - destruct (sget _ (f_keys f)); [discriminate|]. destruct (te_make _ _ _ _) as [fmt|] eqn:M; [|discriminate].
      injection H as _ <-. split; cbn [f_keys f_data]; [|auto].
      intros n k Hn Hk. rewrite sget_sset in Hk. destruct (String.eqb_spec n (trim_space (trim_comma c))) as [E|]; [|auto].
      injection Hk as <-. right. right. cbn [k_fmt]. rewrite E. rewrite <- M. f_equal. unfold col_params.
      specialize (B (cfg_key (trim_space (trim_comma c))) (cfg_key_plain _)).
      destruct (sget _ (f_data f)), (sget _ cfg); cbn in B |- *; congruence.
  Qed.
  Lemma one_input_col prev m f w f1 : one_input T name prev (String "@" m) f = Some (w, f1) -> col_ok f -> col_ok f1.
  Proof.
    unfold one_input. cbv zeta. intros H [A B].
    destruct (sget (String "@" m) (f_keys f)) as [k|] eqn:E.
    - destruct (k_col k); [injection H as _ <-; split; auto|].
      destruct (String.eqb _ _); [destruct (prev_gen _ _); [|discriminate]|]; injection H as _ <-; split; auto.
    - destruct (String.eqb _ _); [destruct (prev_gen _ _); [|discriminate]; injection H as _ <-; split; auto|].
      destruct (sget (cfg_key (String "@" m)) (f_data f)) as [d|] eqn:D; [|discriminate].
      destruct (te_make _ _ _ _) as [fmt|] eqn:M; [|discriminate]. injection H as _ <-. split; cbn [f_keys f_data].
      + intros n k Hn Hk. rewrite sget_sset in Hk. destruct (String.eqb_spec n (String "@" m)); [|auto]. injection Hk as <-. auto.
      + destruct (String.eqb (d_scope d) ""); [|auto]. intros n Hn. rewrite sget_sset.
        destruct (String.eqb_spec n (String "@" m)); [|auto]. subst n. exfalso. now apply (Hn m).
  Qed.
  Lemma expand_col q f q' f1 : expand_csv T q f = Some (q', f1) -> col_ok f -> col_ok f1.
  Proof.
    intros H [A B]. pose proof (expand_keys _ _ _ _ _ H) as K. split; [now rewrite K|].
    unfold expand_csv in H. destruct (find_csv q) as [[[[a b] c] d]|]; [|now injection H as _ <-].
    destruct (digits_value 0 b) as [n|]; [|discriminate]. destruct (n <? 2 ^ 31)%N; [|discriminate].
    destruct (csv_keys _ _ _) as [[acc' data']|] eqn:C; [|discriminate]. injection H as _ <-. cbn [f_data snd].
    eapply csv_keys_same; eauto.
  Qed.
  Lemma load_file_col ls ss f' : load_file T name ls keys0 cfg = Some (ss, f') ->
    forall n k, n <> "_" -> sget n (f_keys f') = Some k -> sget n keys0 = Some k \/ k_col k = None \/
       te_make T "column" n (col_params cfg n) = Some (k_fmt k).
  Proof.
    intros H. apply (load_file_keep T name col_ok) in H; [apply H| | | | |].
    - intros. eapply column_col; eauto.
    - intros. eapply one_input_col; eauto.
    - intros. eapply expand_col; eauto.
    - intros s f [A B]. split; auto.
    - split; cbn; auto. now intros n _.
  Qed.
End cols.

Lemma load_trx_col T read xs : forall set set', load_trx T read xs set = Some set' ->
  forall n k, n <> "_" -> sget n (t_keys set') = Some k -> sget n (t_keys set) = Some k \/ k_col k = None \/
    exists x, In x xs /\ te_make T "column" n (col_params (x_data x) n) = Some (k_fmt k).
Proof.
  induction xs as [|x xs IH]; intros set set' H n k Hn Hk; cbn [load_trx] in H.
  - injection H as <-. auto.
  - destruct (read (x_file x)) as [ls|]; [|discriminate].
    destruct (load_file T (x_name x) ls (t_keys set) (x_data x)) as [[ss f]|] eqn:E; [|discriminate]. cbn [fst snd] in H.
    destruct (IH _ _ H n k Hn Hk) as [X|[X|(y & A & B)]].
    + cbn [t_keys] in X. destruct (load_file_col _ _ _ _ _ _ _ E n k Hn X) as [Y|[Y|Y]]; auto.
      right. right. exists x. split; [now left|auto].
    + auto.
    + right. right. exists y. split; [now right|auto].
Qed.

(** ** The format of a key *)
Lemma bool_yes s : bool_of s = true <-> yes s.
Proof.
  unfold bool_of, yes. cbv zeta. cbn [In]. rewrite !orb_true_iff, !String.eqb_eq. intuition auto.
Qed.
Lemma quote_params key x : bool_of (str_of (col_params (x_data x) key) "quote-value") = true <-> quote_value key x.
Proof.
  unfold str_of, col_params, quote_value. destruct (sget (cfg_key key) (x_data x)) as [d|] eqn:D.
  - destruct (sget "quote-value" (d_params d)) as [s|] eqn:S.
    + rewrite bool_yes. split; [intros Y; eauto|]. intros (d' & s' & A & B & C). injection A as <-. rewrite S in B. now injection B as <-.
    + split; [discriminate|]. intros (d' & s' & A & B & _). injection A as <-. rewrite S in B. discriminate.
  - cbn. split; [discriminate|]. intros (d' & s' & A & _). discriminate.
Qed.

Lemma number_fmt fl g n ps f : In g numbers -> data_make fl g n ps = Some f -> f = "%d".
Proof.
  intros I M. unfold data_make in M. destruct (gen_make fl g ps) as [x|] eqn:E; [|discriminate]. injection M as <-.
  cbn in I. repeat (destruct I as [<-|I]; [unfold gen_make in E; cbn [String.eqb Ascii.eqb Bool.eqb] in E;
    match type of E with option_map _ ?o = _ => destruct o; [|discriminate] end; injection E as <-; reflexivity|]). destruct I.
Qed.
Lemma string_fmt fl g n ps f : In g strings -> data_make fl g n ps = Some f -> f = "'%s'".
Proof.
  intros I M. unfold data_make in M. destruct (gen_make fl g ps) as [x|] eqn:E; [|discriminate]. injection M as <-.
  cbn in I. destruct I as [<-|[<-|[]]]; unfold gen_make in E; cbn [String.eqb Ascii.eqb Bool.eqb] in E.
  - match type of E with option_map _ ?o = _ => destruct o; [|discriminate] end. injection E as <-. reflexivity.
  - injection E as <-. reflexivity.
Qed.

Lemma written_fmt fl P cs l a key q kd c set k : pe_make P = data_make fl -> load_stages P cs [] = Some l ->
  written l (map (fun x => stage_of P (fst x) (snd x)) l) a key q kd -> nth_error l a = Some (c, set) -> sget key (t_keys set) = Some k -> key <> "_" ->
  k_fmt k = fmt_of q kd.
Proof.
  intros PM H W Ha EK NU.
  assert (X : local_key (map (fun x => stage_of P (fst x) (snd x)) l) a key -> exists keys0, load_stage P c keys0 = Some set /\ sget key keys0 <> Some k).
  { intros (sc & SC & S1 & S2).
    destruct (stage_keys_of P cs [] WorkloadSpec.no_keys l a c set) as (keys0 & ND & LV & LS & KD); auto.
    { constructor. } { intros n. reflexivity. } { intros n k0 Y. discriminate Y. }
    exists keys0. split; [auto|]. intros Y. unfold WorkloadSpec.scope_in in SC. rewrite KD, EK in SC.
    cbn [option_map key_of ScopeModel.k_scope] in SC. injection SC as SC.
    destruct (LV _ _ Y) as [Z|Z]; rewrite Z in SC; cbn in SC; congruence. }
  assert (CF : forall d, configured l a key d -> local_key (map (fun x => stage_of P (fst x) (snd x)) l) a key -> data_make fl (d_gen d) key (d_params d) = Some (k_fmt k)).
  { intros d (c0 & set0 & x & Ha' & _ & _ & AG & NC) LK. rewrite Ha in Ha'. injection Ha' as <- <-.
    destruct (X LK) as (keys0 & LS & NK). unfold load_stage in LS.
    destruct (load_trx_origin _ _ _ _ _ LS key k EK) as [Y|[Y|(y & d' & Hy & Hd' & (_ & M & _))]]; [contradiction|exfalso; apply Y, NC; exact EK|].
    destruct (AG y d' Hy Hd') as [A B]. rewrite A, B in M. cbn [te_make tenv_of] in M. now rewrite PM in M. }
  assert (CC : k_col k <> None -> local_key (map (fun x => stage_of P (fst x) (snd x)) l) a key ->
    exists x, In x (s_trx c) /\ k_fmt k = (if bool_of (str_of (col_params (x_data x) key) "quote-value") then "'%v'" else "%v")).
  { intros CK LK. destruct (X LK) as (keys0 & LS & NK). unfold load_stage in LS.
    destruct (load_trx_col _ _ _ _ _ LS key k NU EK) as [Y|[Y|(y & Hy & M)]]; [contradiction|contradiction|].
    exists y. split; [auto|]. cbn [te_make tenv_of] in M. rewrite PM in M. unfold data_make, gen_make in M.
    cbn [String.eqb Ascii.eqb Bool.eqb] in M. cbn [option_map gen_format snd] in M. now injection M as <-. }
  destruct W as [d A B C|d A B C|c' set' k' A B C D E|c' set' k' A B C D E].
  - apply number_fmt with (1 := C) (2 := CF d A B).
  - apply string_fmt with (1 := C) (2 := CF d A B).
  - rewrite Ha in A. injection A as <- <-. rewrite EK in B. injection B as <-.
    destruct (CC C D) as (x & Hx & ->). specialize (E x Hx). apply quote_params in E. now rewrite E.
  - rewrite Ha in A. injection A as <- <-. rewrite EK in B. injection B as <-.
    destruct (CC C D) as (x & Hx & ->). specialize (E x Hx). destruct (bool_of _) eqn:Bo; [|reflexivity].
    apply quote_params in Bo. contradiction.
Qed.

(** ** Statements of files *)
Lemma parsed_nth T name us f ss f' : parsed T name us f ss f' ->
  (forall q mods t m, In (q, mods) us -> In t mods -> modifier_of T t m -> ~ occurs "copies" m) ->
  forall j p, nth_error ss j = Some p ->
  exists q mods ms fa fb, nth_error us j = Some (q, mods) /\ statements T name q ms fa = Some ([p], fb) /\ keys_le fb f'.
Proof.
  induction 1 as [f|q mods ms us f ss f1 ss' f2 FM S P IH]; intros NC j p Hj; [destruct j; discriminate|].
  pose proof (parsed_ok _ _ _ _ _ _ P) as (LE & _).
  assert (NM : Forall (fun m => ~ occurs "copies" m) ms).
  { clear - FM NC. assert (G : forall t m, In t mods -> modifier_of T t m -> ~ occurs "copies" m) by (intros t m; apply (NC q mods); now left).
    clear NC. induction FM as [|t m ts ms H F IH]; constructor; [apply (G t); auto; now left|]. apply IH. intros t' m' I. apply G. now right. }
  assert (ONE : exists p0, ss = [p0]).
  { unfold statements in S. pose proof (modifiers_frame T name ms (new_stmt name (trim_space q)) (see_ddl (new_stmt name (trim_space q)) f) NM) as F.
    cbv zeta in S. destruct (modifiers T name ms _ _) as [[s1 g1|]|]; [|contradiction|discriminate].
    destruct (finish _ _ _ _ _ _) as [[s2 g2]|]; [|discriminate]. injection S as <- _. eauto. }
  destruct ONE as [p0 ->]. destruct j as [|j]; cbn [nth_error app] in *.
  - injection Hj as <-. exists q, mods, ms, f, f1. auto.
  - destruct (IH (fun q' mods' t m I => NC q' mods' t m (or_intror I)) j p Hj) as (q' & mods' & ms' & fa & fb & A). exists q', mods', ms', fa, fb. exact A.
Qed.

Lemma in_units rs : forall pend q mods t, In (q, mods) (units pend rs) -> In t mods -> In t pend \/ exists r, In r rs /\ In t r.
Proof.
  induction rs as [|r rs IH]; intros pend q mods t H Ht; cbn [units] in H; [contradiction|].
  assert (ML : forall t, In t (mod_lines r) -> In t r) by (unfold mod_lines; intros t0 X; apply filter_In in X; tauto).
  destruct (sql_lines r) as [|s0 s1].
  - destruct (IH _ _ _ _ H Ht) as [X|(r' & X & Y)]; [|right; exists r'; split; [now right|auto]].
    apply in_app_or in X as [X|X]; [auto|]. right. exists r. split; [now left|auto].
  - destruct H as [H|H].
    + injection H as _ <-. apply in_app_or in Ht as [X|X]; [auto|]. right. exists r. split; [now left|auto].
    + destruct (IH _ _ _ _ H Ht) as [[]|(r' & X & Y)]. right. exists r'. split; [now right|auto].
Qed.
Lemma in_runs ls : forall cur r t, In r (runs cur ls) -> In t r -> In t cur \/ In t ls.
Proof.
  induction ls as [|s ls IH]; intros cur r t H Ht; cbn [runs] in H.
  - destruct cur; [contradiction|]. destruct H as [<-|[]]. auto.
  - destruct s as [|c s].
    + destruct cur as [|x cur].
      * destruct (IH _ _ _ H Ht) as [[]|X]. right. now right.
      * destruct H as [<-|H]; [auto|]. destruct (IH _ _ _ H Ht) as [[]|X]. right. now right.
    + destruct (IH _ _ _ H Ht) as [X|X]; [|right; now right]. apply in_app_or in X as [X|[X|[]]]; auto. right. now left.
Qed.
Lemma in_before ls t : In t (before_eof ls) -> In t ls.
Proof.
  induction ls as [|s ls IH]; cbn; [auto|]. destruct (String.eqb s "-- EOF"); cbn; [contradiction|]. intros [H|H]; auto.
Qed.

Lemma file_unit T name ls keys cfg ss f' : load_file T name ls keys cfg = Some (ss, f') ->
  (forall t m, In t (map trim_space ls) -> modifier_of T t m -> ~ occurs "copies" m) ->
  forall j p, nth_error ss j = Some p ->
  exists q mods ms fa fb, nth_error (units [] (runs [] (before_eof (map trim_space ls)))) j = Some (q, mods) /\ no_margin q /\
    statements T name q ms fa = Some ([p], fb) /\ keys_le fb f'.
Proof.
  intros H NC j p Hj. apply load_file_units in H as (_ & PA & _ & _).
  destruct (parsed_nth _ _ _ _ _ _ PA) with (j := j) (p := p) as (q & mods & ms & fa & fb & A & B & C); auto.
  { intros q mods t m Hq Ht. apply NC. destruct (in_units _ _ _ _ _ Hq Ht) as [[]|(r & R1 & R2)].
    destruct (in_runs _ _ _ _ R1 R2) as [[]|X]. now apply in_before. }
  exists q, mods, ms, fa, fb. split; [auto|]. split; [|auto].
  assert (M : Forall no_margin (before_eof (map trim_space ls))).
  { apply before_eof_all. apply Forall_map, Forall_forall. intros s _. apply trim_space_margin. }
  pose proof (units_margin _ (runs_lines _ M [] (Forall_nil _)) []) as U. rewrite Forall_forall in U.
  apply (U (q, mods)). now apply nth_error_In in A.
Qed.

Lemma prevs_from l : forall last k, In k (prevs last l) -> In k (key_names l) /\ k <> "@PREV" \/
  k = last /\ exists i, nth_error (key_names l) i = Some "@PREV" /\ forall j p, (j < i)%nat -> nth_error (key_names l) j = Some p -> p = "@PREV".
Proof.
  induction l as [|[s|n c] l IH]; intros last k H; cbn [prevs key_names] in *; [contradiction|auto|].
  destruct (String.eqb_spec n "PREV") as [->|NP].
  - destruct H as [<-|H]; [right; split; [auto|]; exists 0%nat; split; [reflexivity|lia]|].
    destruct (IH _ _ H) as [[A B]|(A & i & B & C)]; [left; split; [now right|auto]|]. right. split; [auto|]. exists (S i). split; [exact B|].
    intros [|j] p L Hj; cbn in Hj; [now injection Hj as <-|]. apply (C j p); [lia|auto].
  - destruct (IH _ _ H) as [[A B]|(A & _)]; left; [split; [now right|auto]|]. subst k. split; [now left|]. intros E. apply NP. now injection E.
Qed.
Lemma key_names_at l k : In k (key_names l) -> exists n, k = ("@" ++ n)%string.
Proof. induction l as [|[s|n c] l IH]; cbn [key_names]; [contradiction|auto|]. intros [<-|H]; eauto. Qed.
Lemma written_quote l sts a k q kd : written l sts a k q kd -> no_percent q.
Proof. intros [ | | | ]; cbn; repeat split; discriminate. Qed.

Lemma plain_inputs T name l mods f ss f' s : clear l -> no_margin (sql l) -> ~ occurs "/*!" (sql l) ->
  statements T name (sql l) mods f = Some (ss, f') -> In s ss -> p_inputs s = key_names l.
Proof.
  intros Cl NM NC H Hs. apply statements_spec in H as (_ & _ & _ & _ & _ & S).
  destruct (S s Hs) as (cn & s0 & f0 & s1 & f1 & F & LE & DS & PR & MU).
  destruct (multi_fields _ _ MU) as (_ & -> & _ & _).
  replace (trim_space (sql l)) with (sql l) in F.
  2:{ rewrite <- (sapp_nil (sql l)) at 2. symmetry. apply trim_space_pad; [auto|exact I]. }
  rewrite finish_bind in F. rewrite replace_copy_none in F.
  - unfold expand_csv in F. rewrite find_csv_none in F.
    + cbn [fst snd] in F. apply bind_inv in F as (q & -> & _); [reflexivity|auto].
    + intros X. apply NC. eapply occurs_le; [|exact X]. now exists "", "csv".
  - intros X. apply NC. eapply occurs_le; [|exact X]. now exists "", "copy-number*/".
Qed.

(** ** The statements of a client *)
Section Text.
  Context (fl : string -> bool) (P : penv) (cs : list stage) (l : list (stage * tset)) (a : nat) (c : stage) (set : tset).
  Context (PM : pe_make P = data_make fl) (O : forall ks, Permutation (pe_order P ks) ks) (LS : load_stages P cs [] = Some l).
  Context (Ha : nth_error l a = Some (c, set)) (ND : NoDup (map x_name (s_trx c))).
  Let sts := map (fun x => stage_of P (fst x) (snd x)) l.

  Lemma stage_loaded : exists keys0, load_stage P c keys0 = Some set.
  Proof using LS Ha.
    destruct (stage_keys_of P cs [] WorkloadSpec.no_keys l a c set) as (keys0 & _ & _ & X & _); eauto.
    { constructor. } { intros n. reflexivity. } { intros n k0 Y. discriminate Y. }
  Qed.

  Lemma stmt_text name ss j p : In name (map x_name (s_trx c)) -> no_copies P c name -> sget name (t_stmts set) = Some ss -> nth_error ss j = Some p ->
    sget "@PREV" (t_keys set) = None ->
    exists q, file_stmt P c name j q /\ forall t, sql t = q -> clear t -> keys_prefix_free (key_names t) -> ~ occurs "/*!" q ->
      (p_prepare p = true -> p_query p = filled (fun _ => "?") "" t /\ p_inputs p = key_names t) /\
      (p_prepare p = false -> forall quote kind,
         (forall k, In k (key_names t) -> k <> "@PREV" -> written l sts a k (quote k) (kind k)) ->
         (forall x y, In x (prevs "" t) -> In y (prevs "" t) -> quote x = quote y /\ kind x = kind y) ->
         (forall s, In (TLit s) t -> no_percent s) ->
         p_inputs p = key_names t /\
         forall xs, kinds kind "" (key_names t) xs ->
           exists texts, Forall2 text_of xs texts /\ sprint (p_query p) (map Some xs) = Some (sent quote quote "" t texts)).
  Proof using PM O LS Ha ND.
    intros IN NC SS Hj NP. destruct stage_loaded as (keys0 & LO). apply in_map_iff in IN as (x & <- & Hx).
    unfold load_stage in LO. apply load_trx_spec in LO as (_ & _ & LO & _); [|exact ND|reflexivity].
    destruct (LO x Hx) as (ls & keys & ss' & f & R & F & S & _ & KS). rewrite SS in S. injection S as <-.
    destruct (file_unit _ _ _ _ _ _ _ F) with (j := j) (p := p) as (q & mods & ms & fa & fb & U & M & ST & LE); auto.
    { intros t m It. apply (NC x ls t m); auto. }
    exists q. split; [exists x, ls, mods; auto|]. intros t <- CL PF OC.
    assert (NPb : sget "@PREV" (f_keys fb) = None).
    { destruct (sget "@PREV" (f_keys fb)) as [k|] eqn:E; [|reflexivity]. apply LE, KS in E. congruence. }
    assert (PP : (forall a b, In a (prevs "" t) -> In b (prevs "" t) -> placeholder (p_prepare p) fb a = placeholder (p_prepare p) fb b) ->
      p_query p = filled (placeholder (p_prepare p) fb) "" t /\ p_inputs p = key_names t /\ p_calls p = key_calls t).
    { apply (plain_placeholders (tenv_of P c) (x_name x) O "" t ms fa [p] fb p); auto; [exact I|now rewrite sapp_nil|now left]. }
    split.
    - intros PR. rewrite PR in PP. destruct PP as (A & B & _); [reflexivity|]. split; [|exact B]. rewrite A. reflexivity.
    - intros PR quote kind W AG LT. rewrite PR in PP.
      pose proof ST as ST'. apply statements_spec in ST' as (_ & _ & _ & _ & OK & _). inversion OK as [|? ? (_ & INS & _) _]; subst.
      assert (FK : forall k v, In k (key_names t) -> k <> "@PREV" -> sget k (f_keys fb) = Some v -> no_percent (quote k) /\ k_fmt v = fmt_of (quote k) (kind k)).
      { intros k v Ik Nk E. specialize (W k Ik Nk). split; [now apply written_quote in W|]. apply LE, KS in E.
        apply (written_fmt fl P cs l a k (quote k) (kind k) c set v); auto. destruct (key_names_at _ _ Ik) as (n & ->). discriminate. }
      assert (EI : p_inputs p = key_names t) by (eapply plain_inputs; eauto; now left).
      assert (HK : forall k, In k (key_names t) /\ k <> "@PREV" \/ In k (prevs "" t) ->
        no_percent (quote k) /\ placeholder false fb k = fmt_of (quote k) (kind k)).
      { intros k K.
        assert (K' : In k (key_names t) /\ k <> "@PREV").
        { destruct K as [K|K]; [exact K|]. destruct (prevs_from _ _ _ K) as [X|(_ & i & X & Y)]; [exact X|]. exfalso.
          rewrite EI in INS. destruct (INS i _ X) as [Z|(_ & j' & p' & Z1 & Z2 & Z3)]; [unfold has_key in Z; congruence|].
          apply Z3. eapply Y; eauto. }
        destruct K' as [K1 K2]. pose proof K1 as K3. rewrite <- EI in K3. apply In_nth_error in K3 as (i & Hi).
        destruct (INS i k Hi) as [Z|(Z & _)]; [|contradiction]. unfold has_key in Z. unfold placeholder.
        destruct (sget k (f_keys fb)) as [v|] eqn:E; [|congruence]. eapply FK; eauto. }
      destruct PP as (A & _).
      { intros x' y' X Y. destruct (AG x' y' X Y) as [G1 G2]. rewrite (proj2 (HK x' (or_intror X))), (proj2 (HK y' (or_intror Y))). congruence. }
      split; [exact EI|]. intros xs K. rewrite A. apply sprint_sent with (kind := kind); auto.
  Qed.
End Text.

(** ** Values of a run *)
Lemma kinds_of kind ins : forall xs last, List.length xs = List.length ins ->
  (forall j key, nth_error ins j = Some key -> key <> "@PREV" ->
     Forall (is_kind (kind key)) (firstn (S (EndSpec.prevs (skipn (S j) ins))) (skipn j xs))) ->
  Forall (is_kind (kind last)) (firstn (EndSpec.prevs ins) xs) -> kinds kind last ins xs.
Proof.
  induction ins as [|k ins IH]; intros xs last L H F; destruct xs as [|x xs]; try discriminate; [exact I|].
  cbn [kinds]. cbv zeta. injection L as L. unfold EndSpec.prevs in F. fold EndSpec.prevs in F. change ScopeModel.PREV with "@PREV" in F.
  assert (H' : forall j key, nth_error ins j = Some key -> key <> "@PREV" ->
     Forall (is_kind (kind key)) (firstn (S (EndSpec.prevs (skipn (S j) ins))) (skipn j xs))) by (intros j key; apply (H (S j) key)).
  destruct (String.eqb_spec k "@PREV") as [->|NP].
  - cbn [firstn] in F. inversion F; subst. auto.
  - specialize (H 0%nat k eq_refl NP). cbn [skipn firstn] in H. inversion H; subst. auto.
Qed.
Lemma allowed_numbers me g ps vs : allowed me g ps vs -> In g numbers -> Forall (is_kind KNumber) vs.
Proof.
  intros [ | | | | | | | ] I; try (repeat constructor).
  - cbn in I; repeat destruct I as [I|I]; try discriminate I; destruct I.
  - cbn in I; repeat destruct I as [I|I]; try discriminate I; destruct I.
  - clear. induction fs; constructor; auto. exact Logic.I.
Qed.
Lemma allowed_strings me g ps vs : allowed me g ps vs -> In g strings -> Forall (is_kind KText) vs.
Proof.
  intros [ | | | | | | | ] I; try (repeat constructor); cbn in I; repeat destruct I as [I|I]; try discriminate I; destruct I.
Qed.
