(** Splitting texts, and reading DSNs. *)
From Verif Require Import Prelude ConfigModel ConfigSpec DsnModel DriverModel.
#[local] Open Scope list_scope.
#[local] Open Scope string_scope.

Lemma sapp_assoc (a b c : string) : (a ++ b) ++ c = a ++ (b ++ c).
Proof. induction a; cbn; [reflexivity|]. now rewrite IHa. Qed.

(** No character of [s] is [c]. *)
Definition without (c : ascii) (s : string) : Prop := every (fun x => x <> c) s.
Lemma without_app c a b : without c (a ++ b) <-> without c a /\ without c b.
Proof. unfold without. induction a as [|x a IH]; cbn; [tauto|]. rewrite IH. tauto. Qed.

Lemma split_first_none c s : without c s <-> split_first c s = None.
Proof.
  induction s as [|a s IH]; cbn; [tauto|]. unfold without in *. cbn. destruct (Ascii.eqb_spec a c).
  - split; [tauto|discriminate].
  - rewrite IH. destruct (split_first c s) as [[x y]|]; split; try tauto; try discriminate; intuition discriminate.
Qed.
Lemma split_first_at c a b : without c a -> split_first c (a ++ String c b) = Some (a, b).
Proof.
  induction a as [|x a IH]; cbn; intros W; [now rewrite Ascii.eqb_refl|].
  destruct W as [N W]. destruct (Ascii.eqb_spec x c); [congruence|]. now rewrite (IH W).
Qed.
Lemma split_last_none c s : without c s -> split_last c s = None.
Proof.
  induction s as [|a s IH]; cbn; [reflexivity|]. intros [N W]. rewrite (IH W).
  destruct (Ascii.eqb_spec a c); [congruence|reflexivity].
Qed.
Lemma split_last_at c a b : without c b -> split_last c (a ++ String c b) = Some (a, b).
Proof.
  induction a as [|x a IH]; cbn; intros W; [now rewrite (split_last_none _ _ W), Ascii.eqb_refl|]. now rewrite (IH W).
Qed.
(** What follows does not matter as long as the last [c] is in it. *)
Lemma split_last_app c a b x y : split_last c b = Some (x, y) -> split_last c (a ++ b) = Some (a ++ x, y).
Proof. intros H. induction a as [|d a IH]; cbn; [exact H|]. now rewrite IH. Qed.
Lemma split_last_text c s x y : split_last c s = Some (x, y) -> s = x ++ String c y /\ without c y.
Proof.
  revert x y. induction s as [|a s IH]; intros x y H; cbn in H; [discriminate|].
  destruct (split_last c s) as [[x' y']|] eqn:E.
  - injection H as <- <-. destruct (IH _ _ eq_refl) as [-> W]. auto.
  - destruct (Ascii.eqb_spec a c); [|discriminate]. injection H as <- <-. subst. split; [reflexivity|].
    clear -E. induction s as [|b s IH]; [exact I|]. cbn in E. destruct (split_last c s) as [[]|]; [discriminate|].
    destruct (Ascii.eqb_spec b c); [discriminate|]. split; auto. now apply IH.
Qed.
Lemma split_last_some c s : ~ without c s -> exists x y, split_last c s = Some (x, y).
Proof.
  intros H. destruct (split_last c s) as [[x y]|] eqn:E; [eauto|]. exfalso. apply H. clear H.
  induction s as [|b s IH]; [exact I|]. cbn in E. destruct (split_last c s) as [[]|]; [discriminate|].
  destruct (Ascii.eqb_spec b c); [discriminate|]. split; auto. now apply IH.
Qed.
Lemma split_first_app c a b : ~ without c a -> exists x y, split_first c a = Some (x, y) /\ split_first c (a ++ b) = Some (x, y ++ b).
Proof.
  induction a as [|d a IH]; cbn; intros H; [exfalso; apply H; exact I|].
  destruct (Ascii.eqb_spec d c); [exists "", a; auto|].
  destruct IH as (x & y & E1 & E2); [intros W; apply H; split; auto|]. exists (String d x), y. rewrite E1, E2. auto.
Qed.
Lemma chop_at c a : chop c (a ++ String c "") = Some a.
Proof. unfold chop. rewrite split_last_at by exact I. reflexivity. Qed.

Section driver.
  Context (params_ok : string -> bool) (params_text : option string -> string).
  Notation parse := (parse_dsn params_ok).
  Notation redacted := (redacted_dsn params_ok params_text).

  (** *** The DSN made from settings *)
  Lemma parse_made user password net addr db params :
    without ":" user -> without "@" addr -> without "@" net -> without "(" net ->
    without "/" db -> without "?" db -> without "/" params -> params_ok params = true ->
    parse ((match password with "" => user | _ => user ++ ":" ++ password end) ++ "@" ++ net ++ "(" ++ addr ++ ")/" ++ db ++ "?" ++ params)
    = normalize (DCfg user password net addr db (Some params)).
  Proof.
    intros U A N1 N2 D1 D2 P PO. unfold parse_dsn.
    set (cred := match password with "" => user | _ => user ++ ":" ++ password end).
    replace (cred ++ "@" ++ net ++ "(" ++ addr ++ ")/" ++ db ++ "?" ++ params)
      with ((cred ++ String "@" (net ++ String "(" (addr ++ String ")" ""))) ++ String "/" (db ++ String "?" params)).
    2:{ rewrite !sapp_assoc. cbn [append]. rewrite !sapp_assoc. cbn [append]. rewrite !sapp_assoc. reflexivity. }
    rewrite split_last_at by (apply without_app; split; [auto|]; split; [discriminate|auto]).
    rewrite split_first_at by auto.
    rewrite split_last_at by (apply without_app; split; [auto|]; split; [discriminate|]; apply without_app; split; [auto|repeat constructor; discriminate]).
    assert (C : match split_first ":" cred with Some (a, b) => (a, b) | None => (cred, "") end = (user, password)).
    { subst cred. destruct password as [|p0 p].
      - apply split_first_none in U. now rewrite U.
      - cbn [append]. now rewrite split_first_at. }
    rewrite C. rewrite split_first_at by auto. rewrite chop_at, PO. reflexivity.
  Qed.

  (** *** Redaction *)
  Definition redact (o : option dcfg) : option string :=
    match o with
    | Some c => Some (format_dsn params_text (DCfg (v_user c) "..." (v_net c) (v_addr c) (v_db c) (v_params c)))
    | None => None
    end.
  Lemma normalize_pass u pa pb net addr db params :
    redact (normalize (DCfg u pa net addr db params)) = redact (normalize (DCfg u pb net addr db params)).
  Proof.
    unfold normalize. cbn [v_net v_addr v_user v_pass v_db v_params].
    destruct (match addr with "" => _ | _ => _ end); reflexivity.
  Qed.
  Lemma redacted_same user p p' rest : ~ without "/" rest ->
    redacted (user ++ ":" ++ p ++ "@" ++ rest) = redacted (user ++ ":" ++ p' ++ "@" ++ rest).
  Proof.
    intros H. destruct (split_last_some _ _ H) as (x & y & E).
    unfold redacted_dsn.
    assert (X : forall q, exists pass,
       parse (user ++ ":" ++ q ++ "@" ++ rest) =
       (let '(db, params) := match split_first "?" y with Some (a, b) => (a, Some b) | None => (y, None) end in
        let rest' := match split_last "@" x with Some (_, b) => b | None => x end in
        let u := match split_first ":" user with Some (a, _) => a | None => user end in
        match (match split_first "(" rest' with
               | Some (net, a) => match chop ")" a with Some addr => Some (net, addr) | None => None end
               | None => Some (rest', "")
               end) with
        | None => None
        | Some (net, addr) =>
            if match params with Some p => params_ok p | None => true end
            then normalize (DCfg u pass net addr db params)
            else None
        end)).
    { intros q. unfold parse_dsn.
      replace (user ++ ":" ++ q ++ "@" ++ rest) with ((user ++ ":" ++ q ++ "@") ++ rest) by (now rewrite !sapp_assoc).
      rewrite (split_last_app _ _ _ _ _ E).
      assert (Y : exists cred, split_last "@" ((user ++ ":" ++ q ++ "@") ++ x)
          = Some (user ++ String ":" cred, match split_last "@" x with Some (_, b) => b | None => x end)).
      { destruct (split_last "@" x) as [[a b]|] eqn:EX.
        - exists (q ++ "@" ++ a). rewrite (split_last_app _ _ _ _ _ EX). f_equal. f_equal. now rewrite !sapp_assoc.
        - exists q. replace ((user ++ ":" ++ q ++ "@") ++ x) with ((user ++ ":" ++ q) ++ String "@" x) by (now rewrite !sapp_assoc).
          rewrite split_last_at; [f_equal; f_equal; now rewrite ?sapp_assoc|].
          clear -EX. induction x as [|b s IH]; [exact I|]. cbn in EX. destruct (split_last "@" s) as [[]|]; [discriminate|].
          destruct (Ascii.eqb_spec b "@"); [discriminate|]. split; auto. now apply IH. }
      destruct Y as (cred & ->).
      assert (Z : exists pass, split_first ":" (user ++ String ":" cred) = Some (match split_first ":" user with Some (a, _) => a | None => user end, pass)).
      { destruct (split_first ":" user) as [[a b]|] eqn:EU.
        - destruct (split_first_app ":" user (String ":" cred)) as (a' & b' & E1 & E2).
          { intros W. apply split_first_none in W. congruence. }
          rewrite EU in E1. injection E1 as <- <-. rewrite E2. eauto.
        - apply split_first_none in EU. rewrite (split_first_at _ _ _ EU). eauto. }
      destruct Z as (pass & ->). exists pass. destruct (split_first "?" y) as [[db params]|]; reflexivity. }
    destruct (X p) as (pa & ->). destruct (X p') as (pb & ->). clear X.
    destruct (split_first "?" y) as [[db params]|]; cbv zeta;
      (destruct (split_first "(" _) as [[net a]|]; [destruct (chop ")" a) as [addr|]; [|reflexivity]|]);
      try (destruct (params_ok params); [|reflexivity]); apply normalize_pass.
  Qed.
End driver.
