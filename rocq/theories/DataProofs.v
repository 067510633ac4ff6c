(** The values of the built-in data generators are what their parameters allow. *)
From Verif Require Import Prelude ListAux ScopeModel GenModel GenSpec GenProofs GenProps GapsModel GapsProps DataModel DataSpec.
From Verif Require ConfigModel TrxModel ReportModel.
#[local] Open Scope string_scope.
#[local] Open Scope list_scope.
#[local] Open Scope Z_scope.

(** ** Parameters *)
Lemma atoi_in64 s z : TrxModel.atoi s = Some z -> in64 z.
Proof.
  unfold TrxModel.atoi, in64. cbv zeta. match goal with |- context [match ?d with "" => None | _ => _ end] => destruct d end; [discriminate|].
  destruct (ConfigModel.digits_value 0 _) as [v|]; [|discriminate].
  destruct (TrxModel.has_prefix "-" s).
  - destruct (N.leb_spec v (2 ^ 63)); [|discriminate]. intros [= <-]. lia.
  - destruct (N.ltb_spec v (2 ^ 63)); [|discriminate]. intros [= <-]. lia.
Qed.
Lemma int_of_num ps k dflt z : int64_from (int_of ps k) dflt = Some z -> z = num ps k dflt.
Proof. unfold int_of, num. destruct (sget k ps) as [s|]; cbn; [destruct (TrxModel.atoi s); cbn|]; congruence. Qed.
Lemma num_in64 ps k dflt : in64 dflt -> in64 (num ps k dflt).
Proof.
  unfold num. intros D. destruct (sget k ps) as [s|]; [|exact D]. destruct (TrxModel.atoi s) eqn:E; [eapply atoi_in64; eauto|unfold in64; lia].
Qed.
Lemma uint_of_num ps k dflt : match uint_of ps k with None => dflt | Some (Some n) => n | Some None => 0%N end = unum ps k dflt.
Proof. unfold uint_of, unum. destruct (sget k ps) as [s|]; [destruct (TrxModel.parse_uint64 s)|]; reflexivity. Qed.

Lemma str_of_normal ps : String.eqb (ReportModel.to_lower (str_of ps "dist")) "normal" = true <-> normal_dist ps.
Proof.
  unfold str_of, normal_dist. destruct (sget "dist" ps) as [s|].
  - rewrite String.eqb_eq. split; [eauto|]. intros (x & [= ->] & E). exact E.
  - split; [discriminate|]. intros (x & X & _). discriminate.
Qed.

(** ** Generators in any state *)

(** The state after [k] calls. *)
Fixpoint after {G V} (f : G -> G * V) (g : G) (k : nat) : G := match k with O => g | S k' => fst (f (after f g k')) end.
Lemma after_S {G V} (f : G -> G * V) k : forall g, after f (fst (f g)) k = fst (f (after f g k)).
Proof. induction k as [|k IH]; intros g; [reflexivity|]. cbn. now rewrite IH. Qed.
Lemma calls_after {G V} (f : G -> G * V) n : forall g i, (i < n)%nat -> nth_error (calls f g n) i = Some (snd (f (after f g i))).
Proof.
  induction n as [|n IH]; intros g i L; [lia|]. cbn [calls]. destruct (f g) as [g1 v] eqn:E. destruct i as [|i]; cbn [nth_error after].
  - now rewrite E.
  - rewrite IH by lia. replace g1 with (fst (f g)) by now rewrite E. now rewrite after_S.
Qed.

(** A generator that was made of these parameters, and used. *)
Definition from_params (fl : string -> bool) (name : string) (ps : smap string) (g : gen) : Prop :=
  match g with
  | GInt i => name = "int" /\ gen_make fl "int" ps = Some (GInt i)
  | GGaps _ i => name = "int-gaps" /\ gen_make fl "int-gaps" ps = Some g
  | GRange _ i => name = "int-range" /\ gen_make fl "int-range" ps = Some g
  | GSeq q i => name = "int-range-seq" /\ q = ps /\ exists i0 k, gen_make fl "int-range-seq" ps = Some (GSeq ps i0) /\ i = after int_seq_values i0 k
  | GInc i => name = "auto-inc" /\ exists i0 k, gen_make fl "auto-inc" ps = Some (GInc i0) /\ i = after auto_inc_values i0 k
  | GStr len => name = "str-fill-az" /\ gen_make fl "str-fill-az" ps = Some (GStr len)
  | GXid => name = "xid"
  | GCid ids => name = "client-id" /\ gen_make fl "client-id" ps = Some (GCid ids)
  | GCol q _ => name = "column"
  end.

(** Copy of a new generator is one like it. *)
Lemma copy_make fl name ps g : gen_make fl name ps = Some g -> gen_copy g = Some g.
Proof.
  unfold gen_make. intros H.
  repeat match type of H with (if ?b then _ else _) = _ => destruct b end;
    try (match type of H with option_map _ ?o = _ => destruct o eqn:E end; [|discriminate]); try discriminate;
    injection H as <-; cbn [gen_copy]; try rewrite E; try reflexivity.
  destruct a; reflexivity.
Qed.

Lemma made_from fl name ps g : gen_make fl name ps = Some g -> from_params fl name ps g.
Proof.
  intros H. pose proof H as H0. unfold gen_make in H.
  repeat match type of H with
    (if String.eqb name ?x then _ else _) = _ => destruct (String.eqb_spec name x) as [->|_];
      [try (match type of H with option_map _ ?o = _ => destruct o eqn:E end; [|discriminate]); injection H as <-; cbn [from_params];
       try (split; [reflexivity|]); auto; try (split; [reflexivity|]); try (eexists _, 0%nat; split; [exact H0|reflexivity]); reflexivity|] end.
  discriminate.
Qed.

Section Step.
  Context (fl : string -> bool) (me : runcount).

  Lemma int_ok ps i r : sane "int" ps -> gen_make fl "int" ps = Some (GInt i) ->
    exists v, int_values i (dr_n r) (dr_v1 r) (dr_v2 r) = Some v /\ num ps "min" 1 <= v <= num ps "max" 100000.
  Proof.
    intros S H. cbn [gen_make String.eqb Ascii.eqb Bool.eqb] in H.
    destruct (new_int _ _ _ _ _) as [i'|] eqn:E in H; [|discriminate]. injection H as ->.
    assert (MM : ig_min i = num ps "min" 1 /\ ig_max i = num ps "max" 100000 /\
      (normal_dist ps -> ig_mean i = (if num ps "mean" 0 =? 0 then Z.quot (i64 (i64 (ig_max i - ig_min i) + 1)) 2 else num ps "mean" 0)) /\
      (normal_dist ps -> match sget "stddev" ps with Some s => negb (fl s) | None => false end = false)).
    { pose proof E as X. unfold new_int in X. destruct (int64_from (int_of ps "min") 1) as [mn|] eqn:E1; [|discriminate].
      destruct (int64_from (int_of ps "max") ROWS) as [mx|] eqn:E2; [|discriminate]. apply int_of_num in E1, E2. change ROWS with 100000 in *.
      rewrite <- E1, <- E2. destruct (String.eqb _ "normal") eqn:D.
      - destruct (int64_from (int_of ps "mean") 0) as [m|] eqn:E3; [|discriminate]. apply int_of_num in E3. rewrite <- E3.
        destruct (match sget "stddev" ps with Some s => negb (fl s) | None => false end); [discriminate|]. injection X as <-. cbn [ig_min ig_max ig_mean]. auto.
      - injection X as <-. cbn [ig_min ig_max ig_mean]. repeat split; intros N; apply str_of_normal in N; congruence. }
    destruct MM as (M1 & M2 & M3 & M4). destruct S as (S & _). destruct (S eq_refl) as (S1 & S2 & S3). rewrite <- M1, <- M2 in *.
    destruct (String.eqb (ReportModel.to_lower (str_of ps "dist")) "normal") eqn:D.
    - apply str_of_normal in D. rewrite (M4 D) in E. cbv zeta in S3. specialize (S3 D). specialize (M3 D).
      eapply C08_in_bounds_partial; [exact E| |].
      + destruct S3 as [(A & B & C)|(A & B & C & F)].
        * rewrite M3. destruct (Z.eqb_spec (num ps "mean" 0) 0); [lia|exact B].
        * rewrite M3, A. cbn [Z.eqb]. rewrite (i64_id (ig_max i - ig_min i)), i64_id by (unfold in64; lia).
          rewrite Z.quot_div_nonneg by lia. pose proof (Z.div_mod (ig_max i - ig_min i + 1) 2). pose proof (Z.mod_pos_bound (ig_max i - ig_min i + 1) 2). lia.
      + destruct S3 as [(A & B & C)|(A & B & C & F)].
        * rewrite M3. destruct (Z.eqb_spec (num ps "mean" 0) 0); [lia|exact C].
        * rewrite M3, A. cbn [Z.eqb]. rewrite (i64_id (ig_max i - ig_min i)), i64_id by (unfold in64; lia).
          rewrite Z.quot_div_nonneg by lia. pose proof (Z.div_mod (ig_max i - ig_min i + 1) 2). pose proof (Z.mod_pos_bound (ig_max i - ig_min i + 1) 2). lia.
    - assert (N : ~ normal_dist ps) by (intros N; apply str_of_normal in N; congruence).
      eapply C07_in_bounds_partial; eauto.
  Qed.

  Lemma gaps_ok ps q i r : sane "int-gaps" ps -> gen_make fl "int-gaps" ps = Some (GGaps q i) ->
    exists v, gaps_values i (dr_n r) = Some v /\ num ps "min" 1 <= v <= num ps "max" 100000.
  Proof.
    intros S H. cbn [gen_make String.eqb Ascii.eqb Bool.eqb] in H.
    destruct (new_gaps _ _ _) as [i'|] eqn:E in H; [|discriminate]. injection H as <- ->.
    destruct S as (_ & S & _). destruct (S eq_refl) as (S1 & S2 & S3). clear S. pose proof E as X. unfold new_gaps in X.
    destruct (int64_from (int_of ps "min") 1) as [mn|] eqn:E1; [|discriminate].
    destruct (int64_from (int_of ps "max") ROWS) as [mx|] eqn:E2; [|discriminate]. cbv zeta in X.
    destruct (_ <=? 0); [discriminate|]. destruct (int64_from (int_of ps "p") 20) as [pc|] eqn:E3; [|discriminate]. clear X.
    pose proof (int_of_num _ _ _ _ E1) as N1. pose proof (int_of_num _ _ _ _ E2) as N2. pose proof (int_of_num _ _ _ _ E3) as N3.
    change ROWS with 100000 in *. rewrite <- N1, <- N2, <- N3 in *.
    eapply C13_range_partial; eauto. destruct (C13_values _ _ _ _ _ _ _ E E1 E2 E3) as [_ Y]; [lia|lia|]. apply Y. exact S3.
  Qed.

  Lemma range_ok ps q i r : sane "int-range" ps -> gen_make fl "int-range" ps = Some (GRange q i) ->
    exists n m, int_range_values i (dr_n r) = Some (n, m) /\ num ps "min" 1 <= n <= m /\ m <= num ps "max" 100000 /\
      (m = n + num ps "size" 100 - 1 \/ (m = num ps "max" 100000 /\ num ps "max" 100000 < n + num ps "size" 100 - 1)).
  Proof.
    intros S H. cbn [gen_make String.eqb Ascii.eqb Bool.eqb] in H.
    destruct (new_int_range _ _ _) as [i'|] eqn:E in H; [|discriminate]. injection H as <- ->.
    destruct S as (_ & _ & S & _). destruct (S eq_refl) as (S1 & S2). clear S. pose proof E as X. unfold new_int_range in X.
    destruct (int64_from (int_of ps "size") 100) as [sz|] eqn:E0; [|discriminate].
    destruct (int64_from (int_of ps "min") 1) as [mn|] eqn:E1; [|discriminate].
    destruct (int64_from (int_of ps "max") ROWS) as [mx|] eqn:E2; [|discriminate].
    destruct (mx <=? mn); [discriminate|]. destruct (_ <? sz); [discriminate|].
    apply int_of_num in E0, E1, E2. change ROWS with 100000 in *.
    assert (I1 : in64 mn) by (rewrite E1; apply num_in64; unfold in64; lia). assert (I2 : in64 mx) by (rewrite E2; apply num_in64; unfold in64; lia).
    rewrite <- E0, <- E1, <- E2 in *. injection X as X. rewrite <- X in *.
    exact (C09_pairs_partial _ _ _ _ (dr_n r) E I1 I2 S1 S2).
  Qed.

  Lemma seq_ok ps q i0 k : sane "int-range-seq" ps -> gen_make fl "int-range-seq" ps = Some (GSeq q i0) ->
    snd (int_seq_values (after int_seq_values i0 k)) = chunk (num ps "begin" 1) (num ps "end" 100000) (num ps "size" 100) k.
  Proof.
    intros S H. cbn [gen_make String.eqb Ascii.eqb Bool.eqb] in H.
    destruct (new_int_seq _ _ _) as [i'|] eqn:E in H; [|discriminate]. injection H as <- ->.
    destruct S as (_ & _ & _ & S). destruct (S eq_refl) as (S1 & S2). clear S. pose proof E as X. unfold new_int_seq in X.
    destruct (int64_from (int_of ps "size") 100) as [sz|] eqn:E0; [|discriminate].
    destruct (int64_from (int_of ps "begin") 1) as [b|] eqn:E1; [|discriminate].
    destruct (int64_from (int_of ps "end") ROWS) as [e|] eqn:E2; [|discriminate].
    destruct (e <? b); [discriminate|]. destruct (_ <? sz); [discriminate|].
    apply int_of_num in E0, E1, E2. change ROWS with 100000 in *.
    assert (I1 : in64 b) by (rewrite E1; apply num_in64; unfold in64; lia).
    rewrite <- E0, <- E1, <- E2 in *. injection X as X. rewrite <- X in *.
    pose proof (C10_chunks_partial _ _ _ _ (Datatypes.S k) k E I1 S1 S2 ltac:(lia)) as C.
    rewrite calls_after in C by lia. cbn [is_begin is_end is_size] in C. congruence.
  Qed.

  Lemma inc_ok ps i0 k : gen_make fl "auto-inc" ps = Some (GInc i0) ->
    snd (auto_inc_values (after auto_inc_values i0 k)) = ((unum ps "start" 0 + (N.of_nat k + 1) * unum ps "step" 1) mod 2 ^ 64)%N.
  Proof.
    intros H. cbn [gen_make String.eqb Ascii.eqb Bool.eqb] in H.
    destruct (new_auto_inc _ _) as [i'|] eqn:E in H; [|discriminate]. injection H as ->. unfold new_auto_inc in E.
    rewrite <- (uint_of_num ps "start" 0), <- (uint_of_num ps "step" 1).
    assert (X : i0 = AutoInc (match uint_of ps "start" with None => 0 | Some (Some n) => n | Some None => 0 end)%N
                             (match uint_of ps "step" with None => 1 | Some (Some n) => n | Some None => 0 end)%N).
    { destruct (uint_of ps "start") as [[a|]|]; try discriminate; destruct (uint_of ps "step") as [[b|]|]; try discriminate; injection E as <-; reflexivity. }
    rewrite X. pose proof (auto_calls (match uint_of ps "step" with None => 1 | Some (Some n) => n | Some None => 0 end)%N (Datatypes.S k)
      (match uint_of ps "start" with None => 0 | Some (Some n) => n | Some None => 0 end)%N k ltac:(lia)) as C.
    rewrite calls_after in C by lia. injection C as C. exact C.
  Qed.

  Lemma join_split s : join_comma (split_comma s) = s /\ split_comma s <> [] /\ forall w, In w (split_comma s) -> ~ In ","%char (list_ascii_of_string w).
  Proof.
    induction s as [|c s (A & B & C)]; cbn [split_comma]; [split; [reflexivity|]; split; [discriminate|]; intros w [<-|[]] []|].
    destruct (split_comma s) as [|w ws]; [congruence|]. destruct (Ascii.eqb_spec c ","%char) as [->|N].
    - split; [|split; [discriminate|]].
      + change (join_comma ("" :: w :: ws)) with (String ","%char (join_comma (w :: ws))). now rewrite A.
      + intros x [<-|X]; [intros []|]. now apply C.
    - split; [|split; [discriminate|]].
      + destruct ws; cbn in *; now rewrite A.
      + intros x [<-|X]; [intros [Y|Y]; [congruence|exact (C w (or_introl eq_refl) Y)]|]. apply C. now right.
  Qed.

  Lemma levels_of ws ids : ids_of ws = Some ids -> exists fs, Forall2 level_counter ws fs /\ forall rc, client_id_values ids rc = map (fun f => f rc) fs.
  Proof.
    intros H. apply ids_of_nth in H. induction H as [|w i ws ids H _ (fs & A & B)]; [exists []; split; [constructor|reflexivity]|].
    apply id_of_level in H as (f & F1 & F2). exists (f :: fs). split; [now constructor|]. intros rc. cbn. rewrite F2. f_equal. apply B.
  Qed.

  Lemma cid_ok ps ids : gen_make fl "client-id" ps = Some (GCid ids) ->
    exists ws fs, id_words ps ws /\ Forall2 level_counter ws fs /\ forall rc, client_id_values ids rc = map (fun f => f rc) fs.
  Proof.
    intros H. cbn [gen_make String.eqb Ascii.eqb Bool.eqb] in H.
    destruct (new_client_id _ _) as [i'|] eqn:E in H; [|discriminate]. injection H as ->. unfold new_client_id in E.
    destruct ps as [|p0 ps]; cbn [List.length] in E.
    - injection E as <-. exists ["client"], [rc_client]. split; [reflexivity|]. split; [repeat constructor|reflexivity].
    - unfold id_words. unfold str_of in E. destruct (sget "ids" (p0 :: ps)) as [s|].
      + destruct s as [|a s]; [injection E as <-; exists [], []; repeat split; constructor|]. cbn [String.eqb] in E.
        destruct (levels_of _ _ E) as (fs & A & B). destruct (join_split (String a s)) as (J1 & J2 & J3). exists (split_comma (String a s)), fs.
        split; [|split; assumption]. split; [now rewrite J1|exact J3].
      + injection E as <-. exists [], []. repeat split; constructor.
  Qed.

  Lemma step_ok name ps (g : dgen) rc : from_params fl name ps (fst g) -> letters_end g -> sane name ps -> name <> "column" -> same_client me rc ->
    from_params fl name ps (fst (fst (dgen_values g rc))) /\ letters_end (fst (dgen_values g rc)) /\ allowed me name ps (snd (dgen_values g rc)).
  Proof.
    destruct g as [g src]. cbn [fst]. intros F L S C R.
    assert (LE : forall len, g = GStr len -> letters_end (GStr len, fun n => src (Datatypes.S n))).
    { intros len -> len' n E. exact (L len' (Datatypes.S n) E). }
    unfold dgen_values. cbn [fst snd]. destruct g; cbn [gen_values from_params] in *.
    - destruct F as (-> & F). destruct (int_ok ps g (src 0%nat) S F) as (v & -> & V). split; [|split]; [cbn; auto|intros ? ? ?; discriminate|now constructor].
    - destruct F as (-> & F). destruct (gaps_ok ps _ g (src 0%nat) S F) as (v & -> & V). split; [|split]; [cbn; auto|intros ? ? ?; discriminate|now constructor].
    - destruct F as (-> & F). destruct (range_ok ps _ g (src 0%nat) S F) as (n & m & -> & V1 & V2 & V3).
      split; [|split]; [cbn; auto|intros ? ? ?; discriminate|now constructor].
    - destruct F as (-> & -> & i0 & k & F & ->). pose proof (seq_ok ps _ i0 k S F) as V.
      destruct (int_seq_values (after int_seq_values i0 k)) as [i' [n m]] eqn:E. cbn [fst snd] in *. split; [|split].
      + cbn. split; [reflexivity|]. split; [reflexivity|]. exists i0, (Datatypes.S k). split; [exact F|]. cbn [after]. now rewrite E.
      + intros ? ? ?; discriminate.
      + econstructor. exact V.
    - destruct F as (-> & i0 & k & F & ->). pose proof (inc_ok ps i0 k F) as V.
      destruct (auto_inc_values (after auto_inc_values i0 k)) as [i' n] eqn:E. cbn [fst snd] in *. split; [|split].
      + cbn. split; [reflexivity|]. exists i0, (Datatypes.S k). split; [exact F|]. cbn [after]. now rewrite E.
      + intros ? ? ?; discriminate.
      + econstructor; [|exact V]. lia.
    - destruct F as (-> & F). pose proof (L len 0%nat eq_refl) as X. cbn [snd] in X.
      destruct (str_values (Z.to_nat len) (dr_src (src 0%nat)) (dr_fuel (src 0%nat))) as [s|] eqn:E; [|congruence]. cbn [fst snd].
      destruct (C12_exact_string _ _ _ _ E) as (A & B & _). split; [cbn; auto|]. split; [apply LE; reflexivity|]. constructor; [|exact B].
      cbn [gen_make String.eqb Ascii.eqb Bool.eqb] in F. destruct (new_str_fill (int_of ps "len")) as [z|] eqn:N; [|discriminate]. injection F as ->.
      pose proof (C12_positive _ _ N). unfold new_str_fill in N. destruct (int64_from _ _) as [z'|] eqn:Z1; [|discriminate]. apply int_of_num in Z1.
      destruct (z' <=? 0); [discriminate|]. injection N as ->. rewrite <- Z1, A. lia.
    - subst name. split; [reflexivity|]. split; [intros ? ? ?; discriminate|constructor].
    - destruct F as (-> & F). destruct (cid_ok ps ids F) as (ws & fs & A & B & D). split; [cbn; auto|]. split; [intros ? ? ?; discriminate|].
      cbn [fst snd]. rewrite D, map_map. econstructor; eauto.
    - congruence.
  Qed.

  Lemma allowed_arity name ps vs n : allowed me name ps vs -> arity ps name n -> List.length vs = n.
  Proof.
    intros A B. inversion A; subst; inversion B; subst; cbn in *; auto; try (exfalso; intuition discriminate).
    rewrite map_length. assert (ws0 = ws) as ->; [|match goal with H : Forall2 _ _ _ |- _ => clear - H; induction H; cbn; congruence end].
    repeat match goal with H : id_words _ _ |- _ => unfold id_words in H; revert H end. destruct ps as [|p0 ps]; [congruence|].
    destruct (sget "ids" (p0 :: ps)) as [[|a s]|]; try congruence. intros (E1 & N1) (E2 & N2).
    assert (NE : forall x, String a s = join_comma x -> x <> []) by (intros x X ->; discriminate).
    rewrite <- (split_join ws0), <- (split_join ws) by eauto. congruence.
  Qed.
End Step.
