(** The allocation walk in closed form. *)
From Verif Require Import Prelude ListAux ScopeModel ScopeSpec ScopeProofs StmtModel WorkloadModel WorkloadSpec.

Definition set_flags (b e : bool) (d : sdata) : sdata :=
  SData (d_inputs d) (d_outputs d) (d_insertId d) b e.

(** One statement. *)
Definition stmt_g (sc : scopes) (rl : runlevel) (s : stmt) : option (scopes * sdata) :=
  match walk_inputs sc rl (st_inputs s) (st_calls s) with
  | None => None
  | Some (sc1, ins) =>
    match walk_outputs sc1 rl (st_outputs s) (st_insertId s) with
    | None => None
    | Some (sc2, outs) =>
      match walk_insert_id sc2 rl (st_insertId s) with
      | None => None
      | Some (sc3, iid) => Some (sc3, SData ins outs iid false false)
      end
    end
  end.

Definition next_query (rl : runlevel) : runlevel :=
  RL (rl_stage rl) (rl_eg rl) (rl_cg rl) (rl_client rl) (rl_trx rl) (rl_query rl + 1).
Definition next_trx (rl : runlevel) : runlevel :=
  RL (rl_stage rl) (rl_eg rl) (rl_cg rl) (rl_client rl) (rl_trx rl + 1) 0.

Fixpoint stmts_g (sc : scopes) (rl : runlevel) (stmts : list stmt) : option (scopes * list sdata) :=
  match stmts with
  | [] => Some (sc, [])
  | s :: stmts' =>
    match stmt_g sc (next_query rl) s with
    | None => None
    | Some (sc1, d) =>
      match stmts_g sc1 (next_query rl) stmts' with
      | None => None
      | Some (sc2, ds) => Some (sc2, d :: ds)
      end
    end
  end.

Fixpoint query_plus (rl : runlevel) (n : nat) : runlevel :=
  match n with O => rl | S m => query_plus (next_query rl) m end.

Lemma query_plus_eq n : forall rl,
  query_plus rl n = RL (rl_stage rl) (rl_eg rl) (rl_cg rl) (rl_client rl) (rl_trx rl)
                       (rl_query rl + N.of_nat n).
Proof.
  induction n; intros rl; cbn [query_plus].
  - destruct rl; cbn. f_equal. lia.
  - rewrite IHn. cbn. f_equal. lia.
Qed.

Definition keep_flags (d0 d : sdata) : sdata := set_flags (d_begin d0) (d_end d0) d.

Fixpoint map2 {A B C} (f : A -> B -> C) (l : list A) (l' : list B) : list C :=
  match l, l' with
  | a :: l, b :: l' => f a b :: map2 f l l'
  | _, _ => []
  end.

Lemma stmts_g_length stmts : forall sc rl sc' ds,
  stmts_g sc rl stmts = Some (sc', ds) -> length ds = length stmts.
Proof.
  induction stmts as [|s stmts IH]; cbn; intros sc rl sc' ds H; [inv H; auto|].
  repeat dmh H; try discriminate. inv H. cbn. erewrite IH; eauto.
Qed.

Lemma walk_stmts_g stmts : forall sc rl n cp cm cs dp dm ds,
  length cp = n -> length dp = n -> length cm = length stmts -> length dm = length stmts ->
  walk_stmts sc rl stmts n (cp ++ cm ++ cs) (dp ++ dm ++ ds) =
  match stmts_g sc rl stmts with
  | None => None
  | Some (sc', dn) =>
    Some (sc', query_plus rl (length stmts), (n + length stmts)%nat,
          cp ++ stmts ++ cs, dp ++ map2 keep_flags dm dn ++ ds)
  end.
Proof.
  induction stmts as [|s stmts IH]; intros sc rl n cp cm cs dp dm ds Hc Hd Hcm Hdm.
  - destruct cm; [|discriminate]. destruct dm; [|discriminate]. cbn.
    rewrite Nat.add_0_r. reflexivity.
  - destruct cm as [|c0 cm]; [discriminate|]. destruct dm as [|d0 dm]; [discriminate|].
    cbn [app walk_stmts stmts_g]. subst n. rewrite <- Hd.
    assert (X : set_nth (cp ++ c0 :: cm ++ cs) (length dp) s = Some (cp ++ s :: cm ++ cs)).
    { rewrite Hd. apply set_nth_app. }
    rewrite X. clear X. fold (next_query rl). unfold stmt_g.
    destruct (walk_inputs sc (next_query rl) (st_inputs s) (st_calls s)) as [[sc1 ins]|]; auto.
    destruct (walk_outputs sc1 (next_query rl) (st_outputs s) (st_insertId s)) as [[sc2 outs]|]; auto.
    destruct (walk_insert_id sc2 (next_query rl) (st_insertId s)) as [[sc3 iid]|]; auto.
    rewrite upd_nth_app.
    replace (cp ++ s :: cm ++ cs) with ((cp ++ [s]) ++ cm ++ cs) by (now rewrite <- app_assoc).
    replace (dp ++ SData ins outs iid (d_begin d0) (d_end d0) :: dm ++ ds)
      with ((dp ++ [SData ins outs iid (d_begin d0) (d_end d0)]) ++ dm ++ ds) by (now rewrite <- app_assoc).
    rewrite IH; [|rewrite app_length; cbn; lia|rewrite app_length; cbn; lia|cbn in *; lia|cbn in *; lia].
    destruct (stmts_g sc3 (next_query rl) stmts) as [[sc4 dn]|]; auto.
    cbn [query_plus length map2]. rewrite <- !app_assoc. cbn.
    replace (length dp + S (length stmts))%nat with (S (length dp + length stmts)) by lia. reflexivity.
Qed.

(** The flags of the statements of one trx: begin on the first, end on the last. *)
Definition flag_trx (ds : list sdata) : list sdata :=
  mapi_from (fun i d => set_flags (Nat.eqb i 0) (Nat.eqb (S i) (length ds)) d) 0 ds.

Fixpoint trxs_g (ts : trxset) (sc : scopes) (rl : runlevel) (trx : list string)
  : option (scopes * list sdata) :=
  match trx with
  | [] => Some (sc, [])
  | t :: trx' =>
    match stmts_g sc (next_trx rl) (ts_stmts ts t) with
    | None => None
    | Some (sc1, ds) =>
      match trxs_g ts sc1 (next_trx rl) trx' with
      | None => None
      | Some (sc2, ds') => Some (sc2, flag_trx ds ++ ds')
      end
    end
  end.

Lemma nth_error_map2 {A B C} (f : A -> B -> C) l : forall l' i,
  nth_error (map2 f l l') i =
  match nth_error l i, nth_error l' i with Some a, Some b => Some (f a b) | _, _ => None end.
Proof.
  induction l; intros l' i; cbn; [destruct i; cbn; auto|].
  destruct l'; [destruct i; cbn; auto; now destruct (nth_error l i)|].
  destruct i; cbn; auto.
Qed.

Lemma map2_length {A B C} (f : A -> B -> C) l l' : length l = length l' -> length (map2 f l l') = length l.
Proof. revert l'; induction l; intros [|b l'] H; cbn in *; try discriminate; auto. Qed.

Lemma nth_error_repeat' {A} (x : A) n i :
  nth_error (repeat x n) i = if (i <? n)%nat then Some x else None.
Proof.
  revert i; induction n; intros i; cbn; [now destruct i|].
  destruct i; [reflexivity|]. cbn [nth_error]. rewrite IHn. reflexivity.
Qed.

Lemma nth_error_upd_nth {A} (l : list A) n f l' i :
  upd_nth l n f = Some l' ->
  nth_error l' i = if Nat.eqb i n then option_map f (nth_error l i) else nth_error l i.
Proof.
  revert n l' i; induction l; intros [|n] l' i H; cbn in H; try discriminate.
  - inv H. destruct i; reflexivity.
  - destruct (upd_nth l n f) eqn:E; inv H. destruct i; cbn; auto.
Qed.

Lemma walk_trx_g ts ws trx :
  Forall (fun t => ts_stmts ts t <> []) trx ->
  forall sc rl n cp cs dp,
  length cp = n -> length dp = n ->
  length cs = length (concat (map (ts_stmts ts) trx)) ->
  walk_trx ts ws sc rl trx n (cp ++ cs) (dp ++ repeat sdata_zero (length cs)) =
  match trxs_g ts sc rl trx with
  | None => None
  | Some (sc', dn) =>
    Some (sc',
          match rev trx with
          | [] => rl
          | t :: _ => RL (rl_stage rl) (rl_eg rl) (rl_cg rl) (rl_client rl)
                         (rl_trx rl + N.of_nat (length trx)) (N.of_nat (length (ts_stmts ts t)))
          end,
          cp ++ concat (map (ts_stmts ts) trx), dp ++ dn,
          map (fun t => if ws then Some t else None) trx)
  end.
Proof.
  induction trx as [|t trx IH]; intros NE sc rl n cp cs dp Hc Hd Hcs.
  - cbn in Hcs. destruct cs; [|discriminate]. cbn. rewrite !app_nil_r. destruct rl; reflexivity.
  - inversion NE as [|? ? NEt NErest]; subst. cbn [walk_trx trxs_g].
    fold (next_trx rl).
    cbn [map concat] in Hcs. rewrite app_length in Hcs.
    set (L := length (ts_stmts ts t)) in *.
    assert (HL : (0 < L)%nat) by (unfold L; destruct (ts_stmts ts t); [congruence|cbn; lia]).
    destruct (split_at cs L) as (cm & cr & -> & Hcm); [lia|].
    rewrite app_length in Hcs. rewrite app_length. rewrite Hcm in Hcs |- *.
    assert (Hcr : length cr = length (concat (map (ts_stmts ts) trx))) by lia.
    rewrite repeat_app.
    destruct L as [|L'] eqn:EL; [lia|]. cbn [repeat app].
    rewrite <- Hd. rewrite upd_nth_app.
    set (db := SData (d_inputs sdata_zero) (d_outputs sdata_zero) (d_insertId sdata_zero) true (d_end sdata_zero)).
    change (db :: repeat sdata_zero L' ++ repeat sdata_zero (length cr))
      with ((db :: repeat sdata_zero L') ++ repeat sdata_zero (length cr)).
    rewrite Hd.
    rewrite (walk_stmts_g (ts_stmts ts t) sc (next_trx rl) (length cp) cp cm cr dp
              (db :: repeat sdata_zero L') (repeat sdata_zero (length cr)));
      [|auto|auto|fold L; lia|cbn [length]; rewrite repeat_length; unfold L in EL; lia].
    destruct (stmts_g sc (next_trx rl) (ts_stmts ts t)) as [[sc1 ds]|] eqn:HS; auto.
    pose proof (stmts_g_length _ _ _ _ _ HS) as HDS.
    fold L. rewrite EL.
    replace (length cp + S L')%nat with (S (length cp + L')) by lia.
    (* the end mark *)
    assert (UPD : upd_nth (dp ++ map2 keep_flags (db :: repeat sdata_zero L') ds ++ repeat sdata_zero (length cr))
                    (length cp + L') (fun d => SData (d_inputs d) (d_outputs d) (d_insertId d) (d_begin d) true)
                  = Some (dp ++ flag_trx ds ++ repeat sdata_zero (length cr))).
    { destruct (upd_nth (dp ++ map2 keep_flags (db :: repeat sdata_zero L') ds ++ repeat sdata_zero (length cr))
                    (length cp + L') (fun d => SData (d_inputs d) (d_outputs d) (d_insertId d) (d_begin d) true)) eqn:U.
      - f_equal. apply list_ext. intros i. rewrite (nth_error_upd_nth _ _ _ _ i U).
        assert (LM : length (map2 keep_flags (db :: repeat sdata_zero L') ds) = S L').
        { rewrite map2_length; cbn [length]; rewrite repeat_length; unfold L in EL; lia. }
        assert (LF : length (flag_trx ds) = S L').
        { unfold flag_trx. rewrite length_mapi_from. unfold L in EL; lia. }
        destruct (Nat.lt_ge_cases i (length dp)) as [C1|C1].
        { rewrite !nth_error_app1; auto.
          destruct (Nat.eqb_spec i (length cp + L')); [lia|]. reflexivity. }
        rewrite !(nth_error_app2 dp); auto.
        destruct (Nat.lt_ge_cases (i - length dp) (S L')) as [C2|C2].
        2:{ rewrite !nth_error_app2; try lia. rewrite LM, LF.
            destruct (Nat.eqb_spec i (length cp + L')); [lia|]. reflexivity. }
        rewrite !nth_error_app1; try lia.
        rewrite nth_error_map2. unfold flag_trx. rewrite nth_error_mapi_from. cbn [plus].
        set (j := (i - length dp)%nat) in *.
        destruct (nth_error ds j) as [d|] eqn:ED.
        2:{ apply nth_error_None in ED. unfold L in EL. lia. }
        assert (EB : nth_error (db :: repeat sdata_zero L') j =
                     Some (if Nat.eqb j 0 then db else sdata_zero)).
        { destruct j as [|j']; cbn; auto. rewrite nth_error_repeat'.
          destruct (Nat.ltb_spec j' L'); auto. lia. }
        rewrite EB. unfold L in EL.
        replace (length ds) with (S L') by lia.
        assert (EQB : Nat.eqb i (length cp + L') = Nat.eqb (S j) (S L')).
        { unfold j. destruct (Nat.eqb_spec i (length cp + L')), (Nat.eqb_spec (S (i - length dp)) (S L')); auto; lia. }
        rewrite EQB. destruct (Nat.eqb (S j) (S L')), (Nat.eqb j 0); reflexivity.
      - exfalso. apply upd_nth_none in U. rewrite !app_length, map2_length in U;
          cbn [length] in *; rewrite repeat_length in *; unfold L in EL; lia. }
    rewrite UPD.
    replace (cp ++ ts_stmts ts t ++ cr) with ((cp ++ ts_stmts ts t) ++ cr) by (now rewrite app_assoc).
    replace (dp ++ flag_trx ds ++ repeat sdata_zero (length cr))
       with ((dp ++ flag_trx ds) ++ repeat sdata_zero (length cr)) by (now rewrite app_assoc).
    rewrite IH; auto.
    2:{ rewrite app_length. fold L. lia. }
    2:{ rewrite app_length. unfold flag_trx. rewrite length_mapi_from. unfold L in EL. lia. }
    (* the run level passed on has the same trx number *)
    assert (RLEQ : forall sc0 trx0 rl0 rl1,
              rl_stage rl0 = rl_stage rl1 -> rl_eg rl0 = rl_eg rl1 -> rl_cg rl0 = rl_cg rl1 ->
              rl_client rl0 = rl_client rl1 -> rl_trx rl0 = rl_trx rl1 ->
              trxs_g ts sc0 rl0 trx0 = trxs_g ts sc0 rl1 trx0).
    { intros sc0 trx0 rl0 rl1 A1 A2 A3 A4 A5. destruct trx0; cbn; auto.
      unfold next_trx. now rewrite A1, A2, A3, A4, A5. }
    rewrite (RLEQ sc1 trx (query_plus (next_trx rl) (S L')) (next_trx rl))
      by (rewrite query_plus_eq; reflexivity).
    destruct (trxs_g ts sc1 (next_trx rl) trx) as [[sc2 dn]|]; auto.
    rewrite query_plus_eq. cbn [rl_stage rl_eg rl_cg rl_client rl_trx rl_query next_trx map concat].
    rewrite <- !app_assoc.
    f_equal. f_equal. f_equal. f_equal. f_equal.
    cbn [rev length]. destruct (rev trx) eqn:ER.
    + assert (trx = []) by (apply (f_equal (@rev string)) in ER; rewrite rev_involutive in ER; auto).
      subst trx. cbn. f_equal; lia.
    + cbn. f_equal. lia.
Qed.
