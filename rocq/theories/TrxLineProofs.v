(** Proofs about the lines of trx files and about loading a list of files. *)
From Verif Require Import Prelude ConfigModel ConfigSpec ConfigVarsProofs ConfigProofs TrxModel TrxSpec TrxKeyProofs
  TrxRowProofs TrxProofs TrxStmtProofs TrxCsvProofs TrxCopyProofs.
#[local] Open Scope list_scope.
#[local] Open Scope string_scope.

Lemma prefix_has p s : String.prefix p s = has_prefix p s.
Proof.
  destruct (has_prefix p s) eqn:E.
  - apply has_prefix_spec in E as [r ->]. induction p as [|c p IH]; cbn; [now destruct r|].
    destruct (ascii_dec c c); [auto|congruence].
  - destruct (String.prefix p s) eqn:F; auto. exfalso.
    assert (X : exists r, s = p ++ r).
    { clear E. revert s F. induction p as [|c p IH]; intros s F; [now exists s|]. destruct s as [|d s]; [discriminate|].
      cbn in F. destruct (ascii_dec c d) as [->|]; [|discriminate]. destruct (IH s F) as [r ->]. now exists r. }
    apply has_prefix_spec in X. congruence.
Qed.

(** Lines with a space after each. *)
Definition spaced (q : list string) : string := fold_right (fun l t => l ++ " " ++ t) "" q.
Lemma spaced_app a b : spaced (a ++ b) = (spaced a ++ spaced b)%string.
Proof. induction a as [|l a IH]; cbn [spaced fold_right app]; [reflexivity|]. fold (spaced (a ++ b)) (spaced a). now rewrite IH, !sapp_assoc. Qed.
Lemma spaced_joined q : q <> [] -> spaced q = (joined q ++ " ")%string.
Proof.
  induction q as [|l q IH]; [congruence|]. intros _. destruct q as [|l2 q].
  - reflexivity.
  - change (spaced (l :: l2 :: q)) with (l ++ " " ++ spaced (l2 :: q))%string. rewrite IH by discriminate. unfold joined.
    change (String.concat " " (l :: l2 :: q)) with (l ++ " " ++ String.concat " " (l2 :: q))%string.
    now rewrite !sapp_assoc.
Qed.
Lemma spaced_nil q : Forall (fun l => l <> "") q -> spaced q = "" -> q = [].
Proof. destruct q as [|l q]; auto. intros H E. inversion H; subst. destruct l; [congruence|discriminate]. Qed.

Lemma joined_margin q : q <> [] -> Forall (fun l => l <> "" /\ no_margin l) q -> no_margin (joined q) /\ joined q <> "".
Proof.
  induction q as [|l q IH]; [congruence|]. intros _ H. inversion H as [|? ? [H1 H2] H3]; subst. destruct q as [|l2 q].
  - unfold joined. cbn. auto.
  - destruct IH as [I1 I2]; [discriminate|auto|]. unfold joined in *.
    change (String.concat " " (l :: l2 :: q)) with (l ++ " " ++ String.concat " " (l2 :: q))%string.
    destruct H2 as [A B], I1 as [C D]. split; [split|].
    + rewrite starts_app by auto. exact A.
    + apply ends_app; [discriminate|]. apply ends_app; auto.
    + destruct l; [congruence|discriminate].
Qed.

#[local] Open Scope list_scope.

Section file.
  Context (T : tenv) (name : string).

  Lemma statements_spaced q ms f : q <> [] -> Forall (fun l => l <> "" /\ no_margin l) q ->
    statements T name (spaced q) ms f = statements T name (joined q) ms f.
  Proof.
    intros Hq H. rewrite spaced_joined by auto. destruct (joined_margin q Hq H) as [A _].
    unfold statements. rewrite trim_space_pad, trim_space_id; auto. cbn. repeat split. unfold ws. cbn. tauto.
  Qed.

  Definition run (ls : list string) (l : lstate) : option lres :=
    match lines T name ls l with Some r => line T name r "" | None => None end.

  Lemma line_blank l : line T name l "" =
    match l_str l with
    | "" => Some (LGo l)
    | str => match statements T name str (l_mods l) (l_file l) with
             | Some r => Some (LGo (LState "" [] (l_stmts l ++ fst r) (snd r)))
             | None => None
             end
    end.
  Proof. unfold line. destruct (l_str l); [reflexivity|]. destruct (statements _ _ _ _ _) as [[? ?]|]; reflexivity. Qed.

  Lemma parsed_one q mods ms f ss f1 : Forall2 (modifier_of T) mods ms ->
    parsed T name [(q, mods)] f ss f1 <-> statements T name q ms f = Some (ss, f1).
  Proof.
    intros FM.
    assert (U : forall ms', Forall2 (modifier_of T) mods ms' -> ms' = ms).
    { clear -FM. induction FM as [|l m mods ms H FM IH]; intros ms' F; inversion F as [|? m' ? ms'' H' F']; subst; auto.
      f_equal; auto. destruct H as (r & -> & H), H' as (r' & E & H'). apply sapp_inj_l in E. congruence. }
    split.
    - intros H. inversion H as [|? ? ms' ? ? ss0 f0 ss1 ? F S P]; subst. inversion P; subst. rewrite app_nil_r.
      now rewrite <- (U ms').
    - intros H. rewrite <- (app_nil_r ss). econstructor; eauto. constructor.
  Qed.
  Lemma parsed_cons_iff q mods ms us f ss f2 : Forall2 (modifier_of T) mods ms ->
    parsed T name ((q, mods) :: us) f ss f2 <->
    exists s1 f1 s2, statements T name q ms f = Some (s1, f1) /\ parsed T name us f1 s2 f2 /\ ss = (s1 ++ s2)%list.
  Proof.
    intros FM.
    assert (U : forall ms', Forall2 (modifier_of T) mods ms' -> ms' = ms).
    { clear -FM. induction FM as [|l m mods ms H FM IH]; intros ms' F; inversion F as [|? m' ? ms'' H' F']; subst; auto.
      f_equal; auto. destruct H as (r & -> & H), H' as (r' & E & H'). apply sapp_inj_l in E. congruence. }
    split.
    - intros H. inversion H as [|? ? ms' ? ? ss0 f0 ss1 ? F S P]; subst. rewrite (U ms') in S by auto. eauto 8.
    - intros (s1 & f1 & s2 & A & B & ->). econstructor; eauto.
  Qed.

  Lemma lines_grow ls : forall l l', lines T name ls l = Some l' -> exists ss, l_stmts l' = (l_stmts l ++ ss)%list.
  Proof.
    induction ls as [|s ls IH]; intros l l' H; cbn [lines] in H.
    - injection H as <-. exists []. now rewrite app_nil_r.
    - destruct (line T name l (trim_space s)) as [r|] eqn:E; [|discriminate]. cbn in H.
      assert (G : exists ss, l_stmts (match r with LGo x => x | LEof x => x end) = (l_stmts l ++ ss)%list).
      { unfold line in E. destruct (trim_space s) as [|c t].
        - destruct (l_str l); [injection E as <-; exists []; now rewrite app_nil_r|].
          destruct (statements _ _ _ _ _) as [[s1 f1]|]; [|discriminate]. injection E as <-. cbn. eauto.
        - destruct (has_prefix "-- " (String c t)); [|injection E as <-; exists []; cbn; now rewrite app_nil_r].
          destruct (String.eqb _ _); [injection E as <-; exists []; now rewrite app_nil_r|].
          destruct (strip_prefix _ _); [|discriminate]. destruct (vars _ _ _ _); [|discriminate].
          injection E as <-. exists []. cbn. now rewrite app_nil_r. }
      destruct G as [s1 G]. destruct r as [x|x]; [|injection H as <-; eauto].
      apply IH in H as [s2 H]. exists (s1 ++ s2)%list. now rewrite H, G, app_assoc.
  Qed.
  Lemma run_grow ls l l' : run ls l = Some (LGo l') -> exists ss, l_stmts l' = (l_stmts l ++ ss)%list.
  Proof.
    unfold run. destruct (lines T name ls l) as [x|] eqn:E; [|discriminate]. apply lines_grow in E as [s1 E].
    rewrite line_blank. destruct (l_str x); [intros [= <-]; eauto|].
    destruct (statements _ _ _ _ _) as [[s2 f2]|]; [|discriminate]. intros [= <-]. cbn. exists (s1 ++ s2)%list.
    now rewrite E, app_assoc.
  Qed.

  Lemma sql_lines_app a b : sql_lines (a ++ b) = sql_lines a ++ sql_lines b.
  Proof. apply filter_app. Qed.
  Lemma mod_lines_app a b : mod_lines (a ++ b) = mod_lines a ++ mod_lines b.
  Proof. apply filter_app. Qed.

  Lemma run_end cur pend ms l : Forall (fun x => x <> "" /\ no_margin x) cur ->
    l_str l = spaced (sql_lines cur) -> Forall2 (modifier_of T) (pend ++ mod_lines cur) ms -> l_mods l = ms ->
    forall ss f', (exists l', line T name l "" = Some (LGo l') /\ l_stmts l' = l_stmts l ++ ss /\ l_file l' = f') <->
      parsed T name (units pend (runs cur [])) (l_file l) ss f'.
  Proof.
    intros CU ST FM <- ss f'. rewrite line_blank, ST.
    assert (CS : Forall (fun x => x <> "" /\ no_margin x) (sql_lines cur)).
    { apply Forall_forall. intros x Hx. apply filter_In in Hx as [Hx _]. rewrite Forall_forall in CU. auto. }
    assert (CN : Forall (fun x => x <> "") (sql_lines cur)) by (eapply Forall_impl; [|exact CS]; cbn; tauto).
    assert (RU : units pend (runs cur []) = match sql_lines cur with [] => [] | q => [(joined q, pend ++ mod_lines cur)] end).
    { cbn [runs]. destruct cur as [|c cur]; [reflexivity|]. cbn [units]. destruct (sql_lines (c :: cur)); reflexivity. }
    rewrite RU. destruct (sql_lines cur) as [|q0 q] eqn:Q.
    - cbn [spaced fold_right]. split.
      + intros (l' & [= <-] & E & <-). replace ss with (@nil pstmt); [constructor|].
        rewrite <- (app_nil_r (l_stmts l)) in E at 1. now apply app_inv_head in E.
      + intros H. inversion H; subst. exists l. now rewrite app_nil_r.
    - rewrite parsed_one by eauto. rewrite <- statements_spaced by (discriminate || auto).
      destruct (spaced (q0 :: q)) as [|c str] eqn:S; [apply spaced_nil in S; [discriminate|auto]|].
      destruct (statements _ _ _ _ _) as [[s1 f1]|]; cbn [fst snd]; split.
      + intros (l' & [= <-] & E & <-). cbn [l_stmts l_file] in *. now apply app_inv_head in E as ->.
      + intros [= -> ->]. eexists. split; [reflexivity|]. auto.
      + intros (l' & E & _). discriminate.
      + discriminate.
  Qed.

  Lemma run_units ls : forall cur pend ms l, Forall (fun x => x <> "" /\ no_margin x) cur ->
    l_str l = spaced (sql_lines cur) -> Forall2 (modifier_of T) (pend ++ mod_lines cur) ms -> l_mods l = ms ->
    forall ss f', (exists l', run ls l = Some (LGo l') /\ l_stmts l' = l_stmts l ++ ss /\ l_file l' = f') <->
      Forall (fun x => exists m, modifier_of T x m) (filter modifier_line (before_eof (map trim_space ls))) /\
      parsed T name (units pend (runs cur (before_eof (map trim_space ls)))) (l_file l) ss f'.
  Proof.
    induction ls as [|s ls IH]; intros cur pend ms l CU ST FM LM ss f'.
    - cbn [map before_eof filter]. unfold run. cbn [lines]. rewrite (run_end cur pend ms) by auto. split; [split; [constructor|auto]|tauto].
    - cbn [map]. pose proof (trim_space_margin s) as NM. remember (trim_space s) as t eqn:Et. unfold run. cbn [lines]. rewrite <- Et.
      cbn [before_eof]. destruct (String.eqb_spec t "-- EOF") as [->|NE].
      { change (line T name l "-- EOF") with (Some (LEof l)). cbn iota.
        cbn [filter]. rewrite (run_end cur pend ms) by auto. split; [split; [constructor|auto]|tauto]. }
      assert (CS : Forall (fun x => x <> "" /\ no_margin x) (sql_lines cur)).
      { apply Forall_forall. intros x Hx. apply filter_In in Hx as [Hx _]. rewrite Forall_forall in CU. auto. }
      assert (CN : Forall (fun x => x <> "") (sql_lines cur)) by (eapply Forall_impl; [|exact CS]; cbn; tauto).
      destruct (string_dec t "") as [->|NB].
      + rewrite line_blank. cbn [filter modifier_line String.prefix]. cbn [runs].
        assert (RU : forall rs, units pend (match cur with [] => rs | _ => cur :: rs end) =
          match sql_lines cur with [] => units (pend ++ mod_lines cur) rs | q => (joined q, pend ++ mod_lines cur) :: units [] rs end).
        { intros rs. destruct cur as [|c cur]; [cbn; now rewrite app_nil_r|]. cbn [units]. destruct (sql_lines (c :: cur)); reflexivity. }
        replace (match cur with [] => runs [] (before_eof (map trim_space ls)) | _ :: _ => cur :: runs [] (before_eof (map trim_space ls)) end)
          with (match cur with [] => runs [] (before_eof (map trim_space ls)) | _ => cur :: runs [] (before_eof (map trim_space ls)) end) by reflexivity.
        rewrite RU, ST. destruct (sql_lines cur) as [|q0 q] eqn:Q.
        * cbn [spaced fold_right]. apply (IH [] (pend ++ mod_lines cur) ms l); auto. now rewrite app_nil_r.
        * destruct (spaced (q0 :: q)) as [|c str] eqn:S; [apply spaced_nil in S; [discriminate|auto]|].
          rewrite <- S. rewrite statements_spaced by (discriminate || auto). rewrite LM.
          rewrite (parsed_cons_iff _ _ ms) by auto.
          destruct (statements _ _ _ _ _) as [[s1 f1]|]; cbn [fst snd].
          -- specialize (IH [] [] [] (LState "" [] (l_stmts l ++ s1) f1)). cbn [l_str l_mods l_stmts l_file] in IH.
             specialize (IH (Forall_nil _) eq_refl (Forall2_nil _) eq_refl). split.
             ++ intros (l' & R & E & F).
                assert (G : exists s2, ss = s1 ++ s2 /\ (exists l', run ls (LState "" [] (l_stmts l ++ s1) f1) = Some (LGo l') /\
                  l_stmts l' = (l_stmts l ++ s1) ++ s2 /\ l_file l' = f')).
                { assert (X : exists s2, l_stmts l' = (l_stmts l ++ s1) ++ s2).
                  { apply run_grow in R as [s2 R]. exists s2. exact R. }
                  destruct X as [s2 X]. exists s2. split; [|eauto]. rewrite X in E. rewrite <- app_assoc in E. now apply app_inv_head in E. }
                destruct G as (s2 & -> & G). apply IH in G as [G1 G2]. split; [auto|]. eauto 8.
             ++ intros [G1 (s1' & f1' & s2 & [= <- <-] & G2 & ->)].
                destruct (proj2 (IH s2 f')) as (l' & R & E & F); [auto|]. exists l'. split; [exact R|]. split; [|auto].
                now rewrite E, app_assoc.
          -- split; [intros (l' & R & _); discriminate|]. intros [_ (s1' & f1' & s2 & G & _)]. discriminate.
      + assert (RU : runs cur (t :: before_eof (map trim_space ls)) = runs (cur ++ [t]) (before_eof (map trim_space ls))).
        { destruct t; [congruence|reflexivity]. }
        rewrite RU. cbn [filter].
        assert (CU' : Forall (fun x => x <> "" /\ no_margin x) (cur ++ [t])) by (apply Forall_app; auto).
        unfold line. destruct t as [|c t'] eqn:Ec; [congruence|]. rewrite <- Ec in *. clear RU.
        unfold modifier_line at 1. rewrite prefix_has. destruct (has_prefix "-- " t) eqn:HP.
        * destruct (String.eqb_spec t "-- EOF"); [congruence|].
          apply has_prefix_spec in HP as [r Hr]. 
          replace (strip_prefix "--" t) with (Some (" " ++ r)%string) by (rewrite Hr; reflexivity).
          assert (ML : modifier_line t = true) by (unfold modifier_line; rewrite prefix_has; apply has_prefix_spec; eauto).
          destruct (vars (te_env T) (te_params T) true (trim_space (" " ++ r))) as [m|] eqn:V; cbn [option_map].
          -- assert (MO : modifier_of T t m) by (exists (" " ++ r)%string; split; [exact Hr|exact V]).
             specialize (IH (cur ++ [t]) pend (ms ++ [m]) (LState (l_str l) (l_mods l ++ [m]) (l_stmts l) (l_file l)) CU').
             cbn [l_str l_mods l_stmts l_file] in IH. 
             replace (sql_lines (cur ++ [t])) with (sql_lines cur) in IH
               by (rewrite sql_lines_app; cbn [sql_lines filter]; rewrite ML; cbn; now rewrite app_nil_r).
             replace (mod_lines (cur ++ [t])) with (mod_lines cur ++ [t]) in IH
               by (rewrite mod_lines_app; unfold mod_lines at 3; cbn [filter]; now rewrite ML).
             rewrite (IH ST); [| |congruence].
             ++ split; intros [A B]; (split; [|exact B]); [constructor; eauto|now inversion A].
             ++ rewrite app_assoc. apply Forall2_app; auto.
          -- split; [intros (l' & R & _); discriminate|]. intros [A _]. inversion A as [|? ? [m (r' & E & V')] A']; subst.
             rewrite Hr in E. change ("-- " ++ r)%string with ("--" ++ " " ++ r)%string in E. apply sapp_inj_l in E. subst r'. congruence.
        * assert (ML : modifier_line t = false) by (unfold modifier_line; now rewrite prefix_has).
          specialize (IH (cur ++ [t]) pend ms (LState (l_str l ++ t ++ " ") (l_mods l) (l_stmts l) (l_file l)) CU').
          cbn [l_str l_mods l_stmts l_file] in IH.
          replace (sql_lines (cur ++ [t])) with (sql_lines cur ++ [t]) in IH
            by (rewrite sql_lines_app; unfold sql_lines at 3; cbn [filter]; now rewrite ML).
          replace (mod_lines (cur ++ [t])) with (mod_lines cur) in IH
            by (rewrite mod_lines_app; unfold mod_lines at 3; cbn [filter]; rewrite ML; now rewrite app_nil_r).
          apply IH; auto. rewrite spaced_app, ST. reflexivity.
  Qed.

  Lemma load_file_units ls keys cfg ss f' : load_file T name ls keys cfg = Some (ss, f') <->
    Forall (fun x => exists m, modifier_of T x m) (filter modifier_line (before_eof (map trim_space ls))) /\
    parsed T name (units [] (runs [] (before_eof (map trim_space ls)))) (FState keys [] cfg false) ss f' /\
    ss <> [] /\ (forall k c, In (k, c) (f_refs f') -> c <> 0%nat).
  Proof.
    set (l0 := LState "" [] [] (FState keys [] cfg false)).
    pose proof (run_units ls [] [] [] l0 (Forall_nil _) eq_refl (Forall2_nil _) eq_refl ss f') as R.
    assert (E : load_file T name ls keys cfg = match run ls l0 with
      | Some (LGo l') => match l_stmts l' with
        | [] => None
        | ss => if forallb (fun kv => negb (Nat.eqb (snd kv) 0)) (f_refs (l_file l')) then Some (ss, l_file l') else None end
      | _ => None end).
    { unfold load_file, run. fold l0. destruct (lines T name ls l0) as [l|]; [|reflexivity]. cbn.
      destruct (line T name l "") as [[l1|l1]|]; reflexivity. }
    assert (B : forall f, forallb (fun kv : string * nat => negb (Nat.eqb (snd kv) 0)) (f_refs f) = true <->
                          forall k c, In (k, c) (f_refs f) -> c <> 0%nat).
    { intros f. rewrite forallb_forall. split.
      - intros H k c Hk. specialize (H _ Hk). cbn in H. destruct (Nat.eqb_spec c 0); [discriminate|auto].
      - intros H [k c] Hk. cbn. apply H in Hk. destruct (Nat.eqb_spec c 0); [congruence|reflexivity]. }
    rewrite E. cbn [l_stmts l_file l0 app] in R. split.
    - intros H. destruct (run ls l0) as [[l1|l1]|] eqn:X; try discriminate.
      destruct (l_stmts l1) as [|s0 s1] eqn:Y; [discriminate|].
      destruct (forallb _ _) eqn:F; [|discriminate]. injection H as <- <-.
      destruct (proj1 R) as [R1 R2]; [exists l1; auto|]. split; [auto|]. split; [auto|]. split; [discriminate|]. now apply B.
    - intros (A & P & NE & U). destruct (proj2 R) as (l1 & X & Y & Z); [auto|]. rewrite X, Y.
      destruct ss as [|s0 ss]; [congruence|]. rewrite Z. now rewrite (proj2 (B f') U).
  Qed.

  (** ** What every accepted file satisfies *)
  Lemma parsed_ok us f ss f' : parsed T name us f ss f' ->
    keys_le f f' /\ (forall k, saved f k -> saved f' k) /\
    (forall k, used f' k -> used f k \/ exists s, In s ss /\ In k (p_inputs s)) /\ Forall (stmt_ok f') ss.
  Proof.
    induction 1 as [f|q mods ms us f ss f1 ss' f2 FM S P IH].
    - split; [apply keys_le_refl|]. split; [auto|]. split; [auto|constructor].
    - apply statements_spec in S as (A1 & _ & A3 & A4 & A5 & _). destruct IH as (B1 & B2 & B3 & B4).
      split; [eapply keys_le_trans; eauto|]. split; [auto|]. split.
      + intros k Hk. destruct (B3 k Hk) as [X|(s & Hs & X)]; [|right; exists s; split; [apply in_or_app|]; auto].
        destruct (A4 k X) as [Y|(s & Hs & Y)]; auto. right. exists s. split; [apply in_or_app|]; auto.
      + apply Forall_app. split; auto. eapply Forall_impl; [|exact A5]. intros s. now apply stmt_ok_le.
  Qed.
  Lemma load_file_ok ls keys cfg ss f' : load_file T name ls keys cfg = Some (ss, f') ->
    (forall k v, sget k keys = Some v -> sget k (f_keys f') = Some v) /\ Forall (stmt_ok f') ss /\
    (forall s o, In s ss -> In o (p_outputs s) -> o <> "_" -> exists s', In s' ss /\ In o (p_inputs s')).
  Proof.
    intros H. apply load_file_units in H as (_ & P & _ & U). apply parsed_ok in P as (A1 & _ & A3 & A4).
    split; [exact A1|]. split; [auto|]. intros s o Hs Ho Hn.
    rewrite Forall_forall in A4. destruct (A4 s Hs) as ((_ & O) & _).
    specialize (O o Ho Hn). unfold saved in O. apply (sget_keys o (f_refs f')) in O.
    destruct (sget o (f_refs f')) as [c|] eqn:E; [|congruence].
    assert (In (o, c) (f_refs f')).
    { clear -E. induction (f_refs f') as [|[k v] m IH]; cbn in E; [discriminate|].
      destruct (String.eqb_spec o k); [left; congruence|right; auto]. }
    apply U in H. destruct c as [|c]; [congruence|]. destruct (A3 o) as [(c' & X)|X]; [now exists c|discriminate|exact X].
  Qed.
End file.

(** ** Several files *)
Lemma load_trx_spec T read xs : forall set set', load_trx T read xs set = Some set' ->
  NoDup (map x_name xs) -> (forall n, In n (map x_name xs) -> sget n (t_stmts set) = None) ->
  t_order set' = t_order set ++ map x_name xs /\
  (forall n, ~ In n (map x_name xs) -> sget n (t_stmts set') = sget n (t_stmts set)) /\
  (forall x, In x xs -> exists ls keys ss f, read (x_file x) = Some ls /\
     load_file T (x_name x) ls keys (x_data x) = Some (ss, f) /\
     sget (x_name x) (t_stmts set') = Some ss /\ sget (x_name x) (t_ddl set') = Some (f_ddl f) /\
     (forall k v, sget k (f_keys f) = Some v -> sget k (t_keys set') = Some v)) /\
  (forall n, ~ In n (map x_name xs) -> sget n (t_ddl set') = sget n (t_ddl set)) /\
  (forall k v, sget k (t_keys set) = Some v -> sget k (t_keys set') = Some v).
Proof.
  induction xs as [|x xs IH]; intros set set' H ND NS.
  - cbn in *. injection H as <-. rewrite app_nil_r. split; [auto|]. split; [auto|]. split; [easy|]. auto.
  - cbn [load_trx] in H. destruct (read (x_file x)) as [ls|] eqn:E1; [|discriminate]. cbn in H.
    destruct (load_file T (x_name x) ls (t_keys set) (x_data x)) as [[ss f]|] eqn:E2; [|discriminate]. cbn [fst snd] in H.
    cbn [map] in ND. inversion ND as [|? ? N1 N2]; subst.
    pose proof (load_file_ok _ _ _ _ _ _ _ E2) as (K & _ & _).
    apply IH in H as (A1 & A2 & A3 & A4 & A5); auto.
    + cbn [t_order t_stmts t_ddl t_keys] in *.
      split; [rewrite A1, <- app_assoc; reflexivity|]. split; [|split; [|split]].
      * intros n Hn. cbn [map In] in Hn. rewrite A2 by tauto. rewrite sget_sset. destruct (String.eqb_spec n (x_name x)); [subst; tauto|auto].
      * intros y [<-|Hy]; [|auto]. exists ls, (t_keys set), ss, f. split; [auto|]. split; [auto|].
        rewrite A2, A4 by auto. rewrite !sget_sset, String.eqb_refl. auto.
      * intros n Hn. cbn [map In] in Hn. rewrite A4 by tauto. rewrite sget_sset. destruct (String.eqb_spec n (x_name x)); [subst; tauto|auto].
      * auto.
    + intros n Hn. cbn [t_stmts]. rewrite sget_sset. destruct (String.eqb_spec n (x_name x)); [subst; tauto|]. apply NS. now right.
Qed.
