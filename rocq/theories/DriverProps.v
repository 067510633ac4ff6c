(** C95-C97: what the MySQL driver is given, and what is logged about it. *)
From Verif Require Import Prelude ConfigModel ConfigSpec DsnModel DsnProps DriverModel DriverProofs.
#[local] Open Scope string_scope.

(** [c] does not occur in [s]. *)
Definition lacks (c : ascii) (s : string) : Prop := every (fun x => x <> c) s.

(** ** C95: the driver is given the configured settings *)

Lemma ensure_port_none h : lacks ":" h -> ensure_port h = h ++ ":3306".
Proof.
  intros H. unfold ensure_port, has_host_port. rewrite split_last_none by exact H.
  unfold has. apply split_first_none in H. rewrite H. reflexivity.
Qed.
Lemma ensure_port_given h p : lacks ":" h -> lacks "[" h -> lacks "]" h -> lacks ":" p -> lacks "[" p -> lacks "]" p ->
  ensure_port (h ++ ":" ++ p) = h ++ ":" ++ p.
Proof.
  intros H1 H2 H3 P1 P2 P3. unfold ensure_port. replace (has_host_port (h ++ ":" ++ p)) with true; [reflexivity|].
  unfold has_host_port. cbn [append]. rewrite split_last_at by exact P1.
  assert (X : (negb (has ":" h) && negb (has "[" (h ++ String ":" p)) && negb (has "]" (h ++ String ":" p)))%bool = true).
  { unfold has. apply split_first_none in H1. rewrite H1.
    assert (A : without "[" (h ++ String ":" p)) by (apply without_app; split; [exact H2|split; [discriminate|exact P2]]).
    assert (B : without "]" (h ++ String ":" p)) by (apply without_app; split; [exact H3|split; [discriminate|exact P3]]).
    apply split_first_none in A. apply split_first_none in B. now rewrite A, B. }
  destruct h as [|a h]; [symmetry; exact X|]. cbn [append] in *. destruct H2 as [H2 _].
  destruct a as [[] [] [] [] [] [] [] []]; try (symmetry; exact X). now destruct H2.
Qed.

(** A bare IPv6 address. *)
Lemma ensure_port_six a b c : lacks "[" (a ++ ":" ++ b ++ ":" ++ c) -> lacks "]" (a ++ ":" ++ b ++ ":" ++ c) ->
  ensure_port (a ++ ":" ++ b ++ ":" ++ c) = "[" ++ (a ++ ":" ++ b ++ ":" ++ c) ++ "]:3306".
Proof.
  set (h := a ++ ":" ++ b ++ ":" ++ c). intros H1 H2.
  assert (HC : ~ without ":" h).
  { unfold h. intros W. apply without_app in W as [_ W]. cbn in W. tauto. }
  unfold ensure_port. assert (HP : has_host_port h = false).
  { unfold has_host_port. destruct (split_last_some ":" h HC) as (x & y & E). rewrite E.
    assert (HX : has ":" x = true).
    { unfold has. destruct (split_first ":" x) as [[u v]|] eqn:F; [reflexivity|]. apply split_first_none in F.
      exfalso. clear H1 H2 HC. unfold h in E. cbn [append] in E.
      destruct (split_last ":" (b ++ String ":" c)) as [[x' y']|] eqn:G.
      - assert (G' : split_last ":" (String ":" (b ++ String ":" c)) = Some (String ":" x', y')) by (cbn [split_last]; now rewrite G).
        rewrite (split_last_app _ _ _ _ _ G') in E. injection E as <- <-. apply without_app in F as [_ F]. cbn in F. tauto.
      - destruct (split_last_some ":" (b ++ String ":" c)) as (? & ? & G'); [|congruence].
        intros W. apply without_app in W as [_ W]. cbn in W. tauto. }
    assert (HB : (negb (has ":" x) && negb (has "[" h) && negb (has "]" h))%bool = false) by now rewrite HX.
    destruct h as [|d h']; [exact HB|]. destruct H1 as [H1 _].
    destruct d as [[] [] [] [] [] [] [] []]; try exact HB. now destruct H1. }
  rewrite HP. replace (has ":" h) with true; [cbn [append]; now rewrite append_assoc'|].
  unfold has. destruct (split_first ":" h) as [[u v]|] eqn:F; [reflexivity|]. now apply split_first_none in F.
Qed.

(** The part that holds: a user name without colon, an address without @, and a database without
    slash and question mark reach the driver as configured (in the configuration, else in my.cnf,
    else the default, as in C47), with whatever password; a host without port gets port 3306, a bare
    IPv6 address brackets too. *)
Theorem C95_driver_partial : forall params_ok params_text F cfg cnf c log,
  make_pool params_ok params_text F cfg = MPool c log -> m_dsn cfg = "" ->
  (m_mycnf cfg = "" -> cnf = None) -> (m_mycnf cfg <> "" -> cnf = f_cnf F (m_mycnf cfg)) ->
  lacks ":" (m_user cfg) -> (forall get, cnf = Some get -> lacks ":" (get "user")) ->
  lacks "@" (m_host cfg) -> lacks "@" (m_socket cfg) ->
  (forall get, cnf = Some get -> lacks "@" (get "host") /\ lacks "@" (get "port") /\ lacks "@" (get "socket")) ->
  lacks "/" (m_db cfg) -> lacks "?" (m_db cfg) ->
  exists socket host,
    chosen (m_user cfg) cnf (fun get => get "user") "finch" (v_user c) /\
    (m_passfile cfg <> "" -> forall content, f_read F (m_passfile cfg) = Some content ->
       content <> "" -> v_pass c = content) /\
    (m_passfile cfg = "" ->
       chosen (m_pass cfg) cnf (fun get => get "password")
         (if (String.eqb (m_user cfg) "" &&
              match cnf with Some get => String.eqb (get "user") "" | None => true end)%bool
          then "amazing" else "") (v_pass c)) /\
    v_db c = m_db cfg /\
    chosen (m_socket cfg) cnf (fun get => get "socket") "" socket /\
    chosen (m_host cfg) cnf cnf_host "127.0.0.1" host /\
    (socket <> "" -> v_net c = "unix" /\ v_addr c = socket) /\
    (socket = "" -> v_net c = "tcp" /\
       (lacks ":" host -> v_addr c = host ++ ":3306") /\
       (forall h p, host = h ++ ":" ++ p -> lacks ":" h -> lacks "[" h -> lacks "]" h ->
          lacks ":" p -> lacks "[" p -> lacks "]" p -> v_addr c = host) /\
       (forall x y z, host = x ++ ":" ++ y ++ ":" ++ z -> lacks "[" host -> lacks "]" host ->
          v_addr c = "[" ++ host ++ "]:3306")).
Proof.
  intros pok ptx F cfg cnf c log M Hd Hc0 Hc1 U1 U2 A1 A2 A3 D1 D2. unfold make_pool in M.
  destruct (set_dsn F cfg) as [src|] eqn:S; [|discriminate].
  destruct (redacted_dsn pok ptx (o_dsn src)) as [lg|] eqn:R; [|discriminate].
  destruct (parse_dsn pok (o_dsn src)) as [c'|] eqn:PD; [|discriminate]. injection M as <- _. clear R lg.
  destruct (C47_settings_partial F cfg src cnf S Hd Hc0 Hc1)
    as (user & password & cred & net & addr & socket & host & opts & E & CU & EC & P1 & P2 & CS & CH & N1 & N2 & O & _).
  assert (CH2 : forall own f dflt eff (Q : string -> Prop), chosen own cnf f dflt eff -> Q own -> Q dflt ->
     (forall get, cnf = Some get -> Q (f get)) -> Q eff).
  { intros own f dflt eff Q (X1 & X2 & X3) Qo Qd Qg. destruct (string_dec own "") as [EO|]; [|now rewrite X1].
    destruct cnf as [get|].
    - destruct (string_dec (f get) "") as [EF|NF].
      + rewrite X3; auto. intros g [= <-]. exact EF.
      + rewrite (X2 EO get eq_refl NF). auto.
    - rewrite X3; auto. intros g [=]. }
  assert (LU : lacks ":" user).
  { apply (CH2 _ _ _ _ _ CU); auto. repeat constructor; discriminate. }
  assert (LS : lacks "@" socket).
  { apply (CH2 _ _ _ _ _ CS); auto; [exact I|]. intros get G. apply A3, G. }
  assert (LH : lacks "@" host).
  { apply (CH2 _ _ _ _ _ CH); auto; [repeat constructor; discriminate|]. intros get G. destruct (A3 get G) as (B1 & B2 & _).
    unfold cnf_host. destruct (get "port") eqn:EP; [exact B1|]. rewrite <- EP in *. apply without_app. split; [exact B1|].
    cbn [append]. split; [discriminate|exact B2]. }
  assert (NA : without "@" addr /\ without "@" net /\ without "(" net).
  { destruct (string_dec socket "") as [Z|Z].
    - destruct (N2 Z) as [-> ->]. split; [exact LH|]. split; repeat constructor; discriminate.
    - destruct (N1 Z) as [-> ->]. split; [exact LS|]. split; repeat constructor; discriminate. }
  destruct NA as (NA1 & NA2 & NA3).
  assert (E' : o_dsn src = (match password with "" => user | _ => user ++ ":" ++ password end) ++ "@" ++ net ++ "(" ++ addr ++ ")/" ++ m_db cfg ++ "?" ++ ("parseTime=true" ++ opts)).
  { rewrite E, EC. reflexivity. }
  assert (PO : pok ("parseTime=true" ++ opts) = true).
  { destruct (pok ("parseTime=true" ++ opts)) eqn:Z; [reflexivity|]. exfalso.
    assert (X : parse_dsn pok (o_dsn src) = None).
    { rewrite E'. clear -LU NA1 NA2 NA3 D1 D2 O Z.
      unfold parse_dsn. set (cr := match password with "" => user | _ => user ++ ":" ++ password end).
      replace (cr ++ "@" ++ net ++ "(" ++ addr ++ ")/" ++ m_db cfg ++ "?" ++ ("parseTime=true" ++ opts))
        with ((cr ++ String "@" (net ++ String "(" (addr ++ String ")" ""))) ++ String "/" (m_db cfg ++ String "?" ("parseTime=true" ++ opts))).
      2:{ rewrite !sapp_assoc. cbn [append]. rewrite !sapp_assoc. cbn [append]. rewrite !sapp_assoc. reflexivity. }
      rewrite split_last_at.
      2:{ apply without_app. split; [exact D1|]. split; [discriminate|]. apply without_app.
          split; [repeat constructor; discriminate|]. destruct O as [->|[->| ->]]; repeat constructor; discriminate. }
      rewrite split_first_at by exact D2. rewrite Z.
      destruct (split_last "@" _) as [[]|]; destruct (split_first ":" _) as [[]|]; destruct (split_first "(" _) as [[]|]; try reflexivity;
        destruct (chop ")" _); reflexivity. }
    congruence. }
  rewrite E' in PD. rewrite parse_made in PD; auto.
  2:{ apply without_app. split; [repeat constructor; discriminate|]. destruct O as [->|[->| ->]]; repeat constructor; discriminate. }
  unfold normalize in PD. cbn [v_net v_addr v_user v_pass v_db v_params] in PD.
  assert (AE : addr <> "").
  { destruct (string_dec socket "") as [Z|Z].
    - destruct (N2 Z) as [_ ->]. destruct CH as (X1 & X2 & X3). destruct (string_dec (m_host cfg) "") as [EO|]; [|now rewrite X1].
      destruct cnf as [get|].
      + destruct (string_dec (cnf_host get) "") as [EF|NF].
        * rewrite X3; auto; [discriminate|]. intros g [= <-]. exact EF.
        * now rewrite (X2 EO get eq_refl NF).
      + rewrite X3; auto; [discriminate|]. intros g [=].
    - destruct (N1 Z) as [_ ->]. exact Z. }
  exists socket, host.
  destruct (string_dec socket "") as [Z|Z].
  - destruct (N2 Z) as [-> ->]. cbn [String.eqb Ascii.eqb Bool.eqb] in PD.
    assert (PD' : c' = DCfg user password "tcp" (ensure_port host) (m_db cfg) (Some ("parseTime=true" ++ opts))).
    { destruct host; [congruence|]. injection PD as <-. reflexivity. }
    subst c'. cbn [v_net v_addr v_user v_pass v_db v_params]. split; [auto|]. split; [auto|]. split; [auto|]. split; [auto|].
    split; [auto|]. split; [auto|]. split; [congruence|]. intros _. split; [auto|]. split; [|split].
    + apply ensure_port_none.
    + intros h p -> X1 X2 X3 X4 X5 X6. now apply ensure_port_given.
    + intros x y z -> X1 X2. now apply ensure_port_six.
  - destruct (N1 Z) as [-> ->]. cbn [String.eqb Ascii.eqb Bool.eqb] in PD.
    assert (PD' : c' = DCfg user password "unix" socket (m_db cfg) (Some ("parseTime=true" ++ opts))).
    { destruct socket; [congruence|]. injection PD as <-. reflexivity. }
    subst c'. cbn [v_net v_addr v_user v_pass v_db v_params]. split; [auto|]. split; [auto|]. split; [auto|]. split; [auto|].
    split; [auto|]. split; [auto|]. split; [auto|]. congruence.
Qed.
Print Assumptions C95_driver_partial.

Definition no_files : fsys := FSys (fun _ => None) (fun _ => None) (fun _ _ _ => true).
Definition yes (_ : string) : bool := true.
Definition text (p : option string) : string := match p with Some x => "?" ++ x | None => "" end.
Example C95_example : make_pool yes text no_files (MySQL "shop" "" "db1" "" "p@ss:w/rd?(" "" "" "" empty_tls "app" None)
  = MPool (DCfg "app" "p@ss:w/rd?(" "tcp" "db1:3306" "shop" (Some "parseTime=true"))
          "app:...@tcp(db1:3306)/shop?parseTime=true".
Proof. vm_compute. reflexivity. Qed.

(** C95 is false for a user name with a colon: the driver logs in as another user with another
    password. *)
Theorem C95_refuted : forall ptx, exists cfg c log,
  make_pool yes ptx no_files cfg = MPool c log /\ m_dsn cfg = "" /\
  m_user cfg = "org:app" /\ m_pass cfg = "secret" /\ v_user c = "org" /\ v_pass c = "app:secret".
Proof.
  intros ptx. exists (MySQL "" "" "" "" "secret" "" "" "" empty_tls "org:app" None).
  do 2 eexists. split; [unfold make_pool; cbn; reflexivity|]. repeat (split; [reflexivity|]). reflexivity.
Qed.
Print Assumptions C95_refuted.

(** A password file that ends with a newline, as editors and echo write it, gives a password that
    ends with a newline. *)
Theorem C95_refuted_file : forall ptx pw, pw <> "" -> exists F cfg c log,
  f_read F (m_passfile cfg) = Some (pw ++ String "010" "") /\ m_passfile cfg <> "" /\
  make_pool yes ptx F cfg = MPool c log /\ v_pass c = pw ++ String "010" "".
Proof.
  intros ptx pw NE. exists (FSys (fun _ => None) (fun _ => Some (pw ++ String "010" "")) (fun _ _ _ => true)).
  set (cfg := MySQL "" "" "db1" "" "" "/pw" "" "" empty_tls "app" None).
  assert (X : pw ++ String "010" "" <> "") by (destruct pw; discriminate).
  assert (S : set_dsn (FSys (fun _ => None) (fun _ => Some (pw ++ String "010" "")) (fun _ _ _ => true)) cfg
    = Some (Source ((match pw ++ String "010" "" with "" => "app" | _ => "app" ++ ":" ++ (pw ++ String "010" "") end)
        ++ "@" ++ "tcp" ++ "(" ++ "db1" ++ ")/" ++ "" ++ "?" ++ "parseTime=true") None)).
  { unfold set_dsn, cfg. cbn -[append]. reflexivity. }
  exists cfg. unfold make_pool, redacted_dsn. rewrite S. cbn [o_dsn].
  rewrite parse_made; try reflexivity; try (repeat constructor; discriminate).
  cbn -[append]. do 2 eexists. split; [reflexivity|]. split; [discriminate|]. split; [reflexivity|]. reflexivity.
Qed.
Print Assumptions C95_refuted_file.

(** ** C96: passwords are not shown *)

Definition password_is (F : fsys) (cfg : mysql) (p : string) : Prop :=
  m_passfile cfg = "" /\ m_pass cfg = p \/ m_passfile cfg <> "" /\ f_read F (m_passfile cfg) = Some p.
(** The same configuration but for the password, which is in the configuration or in a file. *)
Definition same_but_password (F F' : fsys) (cfg cfg' : mysql) : Prop :=
  m_dsn cfg = "" /\ m_dsn cfg' = "" /\ m_db cfg' = m_db cfg /\ m_host cfg' = m_host cfg /\
  m_mycnf cfg' = m_mycnf cfg /\ m_socket cfg' = m_socket cfg /\ m_tls cfg' = m_tls cfg /\
  m_user cfg' = m_user cfg /\ m_noauto cfg' = m_noauto cfg /\ f_cnf F' = f_cnf F /\ f_tls F' = f_tls F.

Lemma password_shape F F' cfg cfg' p p' : same_but_password F F' cfg cfg' ->
  password_is F cfg p -> password_is F' cfg' p' -> p <> "" -> p' <> "" ->
  (set_dsn F cfg = None /\ set_dsn F' cfg' = None) \/
  exists u rest tl, ~ without "/" rest /\
    set_dsn F cfg = Some (Source (u ++ ":" ++ p ++ "@" ++ rest) tl) /\
    set_dsn F' cfg' = Some (Source (u ++ ":" ++ p' ++ "@" ++ rest) tl).
Proof.
  intros (D & D' & E1 & E2 & E3 & E4 & E5 & E6 & E7 & G1 & G2) P P' NE NE'.
  unfold set_dsn. rewrite D, D', E3, G1.
  set (own := fun c : mysql => match m_mycnf cfg with
      | "" => Some c
      | file => match f_cnf F file with None => None | Some get => Some (mysql_with c (parse_mycnf get)) end end).
  change (match m_mycnf cfg with "" => Some cfg | String a s => match f_cnf F (String a s) with
      Some get => Some (mysql_with cfg (parse_mycnf get)) | None => None end end) with (own cfg).
  change (match m_mycnf cfg with "" => Some cfg' | String a s => match f_cnf F (String a s) with
      Some get => Some (mysql_with cfg' (parse_mycnf get)) | None => None end end) with (own cfg').
  assert (K : (own cfg = None /\ own cfg' = None) \/ exists c c', own cfg = Some c /\ own cfg' = Some c' /\
     m_db c' = m_db c /\ m_host c' = m_host c /\ m_socket c' = m_socket c /\ m_tls c' = m_tls c /\ m_user c' = m_user c /\
     m_noauto c' = m_noauto c /\
     match m_passfile c with "" => Some (m_pass c) | pf => f_read F pf end = Some p /\
     match m_passfile c' with "" => Some (m_pass c') | pf => f_read F' pf end = Some p').
  { assert (Q : forall G c q, password_is G c q -> q <> "" ->
       match m_passfile c with "" => Some (m_pass c) | pf => f_read G pf end = Some q /\
       forall get, match m_passfile (mysql_with c (parse_mycnf get)) with
         "" => Some (m_pass (mysql_with c (parse_mycnf get))) | pf => f_read G pf end = Some q).
    { intros G c q [[A B]|[A B]] N; cbn [mysql_with m_passfile m_pass parse_mycnf].
      - rewrite A, B. cbn [or_default]. split; [reflexivity|]. intros get. destruct q; [congruence|reflexivity].
      - destruct (m_passfile c); [congruence|]. cbn [or_default]. auto. }
    unfold own. destruct (m_mycnf cfg) as [|a s].
    - right. exists cfg, cfg'. repeat (split; [auto; fail|]). split; [now apply Q|now apply Q].
    - destruct (f_cnf F (String a s)) as [get|]; [right|left; auto].
      do 2 eexists. split; [reflexivity|]. split; [reflexivity|].
      cbn [mysql_with m_db m_host m_socket m_tls m_user m_noauto parse_mycnf].
      rewrite E1, E2, E4, E5, E6, E7. repeat (split; [reflexivity|]). split; [now apply Q|now apply Q]. }
  destruct K as [[-> ->]|(c & c' & -> & -> & K1 & K2 & K3 & K4 & K5 & K6 & K7 & K8)]; [left; auto|].
  rewrite K1, K2, K3, K4, K5, K6, K7, K8.
  assert (LT : forall t s, load_tls F' t s = load_tls F t s) by (intros; unfold load_tls; now rewrite G2).
  rewrite LT. cbv zeta. destruct (load_tls F _ _) as [tl|]; [right|left; auto].
  assert (Z : forall b q, q <> "" -> (if (b && String.eqb q "")%bool then "amazing" else q) = q).
  { intros b q N. apply String.eqb_neq in N. rewrite N. now rewrite Bool.andb_false_r. }
  rewrite (Z _ p NE), (Z _ p' NE').
  assert (R : forall (q r : string), q <> "" ->
     match q with "" => or_default (m_user c) "finch" | _ => or_default (m_user c) "finch" ++ ":" ++ q end ++ "@" ++ r
     = or_default (m_user c) "finch" ++ ":" ++ q ++ "@" ++ r).
  { intros q r N. destruct q; [congruence|]. rewrite !sapp_assoc. reflexivity. }
  rewrite (R p _ NE), (R p' _ NE'). do 3 eexists. split; [|split; reflexivity].
  intros W. apply without_app in W. destruct W as [_ W]. apply without_app in W. destruct W as [_ W].
  apply without_app in W. destruct W as [_ W]. apply without_app in W. destruct W as [W _].
  cbn in W. tauto.
Qed.

(** What is logged about the connection is the same whatever the password is: for settings, with
    the password in the configuration or in a file ... *)
Theorem C96_settings : forall params_ok params_text F F' cfg cfg' p p',
  same_but_password F F' cfg cfg' -> password_is F cfg p -> password_is F' cfg' p' -> p <> "" -> p' <> "" ->
  match make_pool params_ok params_text F cfg with
  | MError => make_pool params_ok params_text F' cfg' = MError
  | MPanic => make_pool params_ok params_text F' cfg' = MPanic
  | MPool _ log => exists c', make_pool params_ok params_text F' cfg' = MPool c' log
  end.
Proof.
  intros pok ptx F F' cfg cfg' p p' S P P' NE NE'.
  destruct (password_shape F F' cfg cfg' p p' S P P' NE NE') as [[A B]|(u & rest & tl & W & A & B)];
    unfold make_pool; rewrite A, B; [reflexivity|]. cbn [o_dsn].
  rewrite (redacted_same pok ptx u p p' rest W).
  assert (X : forall d l, redacted_dsn pok ptx d = Some l -> exists c, parse_dsn pok d = Some c).
  { intros d l. unfold redacted_dsn. destruct (parse_dsn pok d); [eauto|discriminate]. }
  destruct (redacted_dsn pok ptx (u ++ ":" ++ p' ++ "@" ++ rest)) as [l|] eqn:R; [|reflexivity].
  destruct (X _ _ R) as (c' & ->). rewrite <- (redacted_same pok ptx u p p' rest W) in R.
  destruct (X _ _ R) as (c & ->). eauto.
Qed.
Print Assumptions C96_settings.

(** ... for a password in my.cnf ... *)
Theorem C96_mycnf : forall params_ok params_text F F' cfg get get' ,
  m_dsn cfg = "" -> m_mycnf cfg <> "" -> m_pass cfg = "" -> m_passfile cfg = "" ->
  f_cnf F (m_mycnf cfg) = Some get -> f_cnf F' (m_mycnf cfg) = Some get' -> f_tls F' = f_tls F ->
  (forall k, k <> "password" -> get' k = get k) -> get "password" <> "" -> get' "password" <> "" ->
  match make_pool params_ok params_text F cfg with
  | MError => make_pool params_ok params_text F' cfg = MError
  | MPanic => make_pool params_ok params_text F' cfg = MPanic
  | MPool _ log => exists c', make_pool params_ok params_text F' cfg = MPool c' log
  end.
Proof.
  intros pok ptx F F' cfg get get' D N P PF G G' T O NE NE'.
  set (cf := mysql_with cfg (parse_mycnf get)). set (cf' := mysql_with cfg (parse_mycnf get')).
  set (bare := fun c : mysql => MySQL (m_db c) "" (m_host c) "" (m_pass c) (m_passfile c) (m_socket c) (m_timeout c) (m_tls c) (m_user c) (m_noauto c)).
  assert (A : forall H g, f_cnf H (m_mycnf cfg) = Some g -> set_dsn H cfg = set_dsn H (bare (mysql_with cfg (parse_mycnf g)))).
  { intros H g E. unfold set_dsn. rewrite D. cbn [bare m_dsn m_mycnf].
    destruct (m_mycnf cfg) as [|a s]; [congruence|]. rewrite E. reflexivity. }
  assert (B : forall H g, f_cnf H (m_mycnf cfg) = Some g -> make_pool pok ptx H cfg = make_pool pok ptx H (bare (mysql_with cfg (parse_mycnf g)))).
  { intros H g E. unfold make_pool. now rewrite (A H g E). }
  rewrite (B F get G), (B F' get' G').
  assert (PW : forall H g, g "password" <> "" -> password_is H (bare (mysql_with cfg (parse_mycnf g))) (g "password")).
  { intros H g E. left. cbn [bare mysql_with parse_mycnf m_passfile m_pass]. rewrite P, PF. split; reflexivity. }
  set (F2 := FSys (f_cnf F) (f_read F') (f_tls F')).
  assert (F2E : forall c, m_mycnf c = "" -> make_pool pok ptx F' c = make_pool pok ptx F2 c).
  { intros c E. unfold make_pool, set_dsn, load_tls. rewrite E. reflexivity. }
  rewrite (F2E (bare (mysql_with cfg (parse_mycnf get'))) eq_refl).
  apply (C96_settings pok ptx F F2 _ _ (get "password") (get' "password")); auto.
  repeat split; cbn [bare mysql_with parse_mycnf m_dsn m_db m_host m_mycnf m_socket m_tls m_user m_noauto F2 f_cnf f_tls]; auto;
    rewrite ?(O "port"), ?(O "host"), ?(O "socket"), ?(O "user") by discriminate; reflexivity.
Qed.
Print Assumptions C96_mycnf.

(** ... and for a password in an explicit DSN. *)
Theorem C96_dsn : forall params_ok params_text F cfg cfg' user p p' rest,
  m_dsn cfg = user ++ ":" ++ p ++ "@" ++ rest -> m_dsn cfg' = user ++ ":" ++ p' ++ "@" ++ rest ->
  ~ lacks "/" rest ->
  match make_pool params_ok params_text F cfg with
  | MError => make_pool params_ok params_text F cfg' = MError
  | MPanic => make_pool params_ok params_text F cfg' = MPanic
  | MPool _ log => exists c', make_pool params_ok params_text F cfg' = MPool c' log
  end.
Proof.
  intros pok ptx F cfg cfg' u p p' rest E E' W.
  assert (NN : forall q, u ++ ":" ++ q ++ "@" ++ rest <> "") by (intros q; destruct u; discriminate).
  unfold make_pool. rewrite (C47_dsn F cfg), (C47_dsn F cfg') by (rewrite ?E, ?E'; apply NN).
  cbn [o_dsn]. rewrite E, E'.
  rewrite (redacted_same pok ptx u p p' rest W).
  assert (X : forall d l, redacted_dsn pok ptx d = Some l -> exists c, parse_dsn pok d = Some c).
  { intros d l. unfold redacted_dsn. destruct (parse_dsn pok d); [eauto|discriminate]. }
  destruct (redacted_dsn pok ptx (u ++ ":" ++ p' ++ "@" ++ rest)) as [l|] eqn:R; [|reflexivity].
  destruct (X _ _ R) as (c' & ->). rewrite <- (redacted_same pok ptx u p p' rest W) in R.
  destruct (X _ _ R) as (c & ->). eauto.
Qed.
Print Assumptions C96_dsn.

Example C96_example :
  make_pool yes text no_files (MySQL "shop" "" "db1" "" "hunter2" "" "" "" empty_tls "app" None)
  = MPool (DCfg "app" "hunter2" "tcp" "db1:3306" "shop" (Some "parseTime=true"))
          "app:...@tcp(db1:3306)/shop?parseTime=true" /\
  make_pool yes text no_files (MySQL "" "app:s/e@c:r(t@tcp(db1)/shop" "" "" "" "" "" "" empty_tls "" None)
  = MPool (DCfg "app" "s/e@c:r(t" "tcp" "db1:3306" "shop" None) "app:...@tcp(db1:3306)/shop" /\
  (let get k := if String.eqb k "password" then "pw1" else if String.eqb k "user" then "app" else "" in
   make_pool yes text (FSys (fun _ => Some get) (fun _ => None) (fun _ _ _ => true))
     (MySQL "" "" "" "/my.cnf" "" "" "" "" empty_tls "" None)
   = MPool (DCfg "app" "pw1" "tcp" "127.0.0.1:3306" "" (Some "parseTime=true"))
           "app:...@tcp(127.0.0.1:3306)/?parseTime=true").
Proof. vm_compute. auto. Qed.

(** ** C97: a data source the driver does not accept is refused with an error *)

(** The part that holds: the program does not panic on a data source that the driver accepts. *)
Theorem C97_accepted_partial : forall params_ok params_text F cfg src c,
  set_dsn F cfg = Some src -> parse_dsn params_ok (o_dsn src) = Some c ->
  exists log, make_pool params_ok params_text F cfg = MPool c log.
Proof.
  intros pok ptx F cfg src c S P. unfold make_pool, redacted_dsn. rewrite S, P. eauto.
Qed.
Print Assumptions C97_accepted_partial.

(** Otherwise it always panics: no DSN that the driver refuses gives an error message.  The
    panic comes before the connection is tried. *)
Theorem C97_refuted : forall params_ok params_text F cfg src,
  set_dsn F cfg = Some src -> parse_dsn params_ok (o_dsn src) = None ->
  make_pool params_ok params_text F cfg = MPanic.
Proof. intros pok ptx F cfg src S P. unfold make_pool, redacted_dsn. rewrite S, P. reflexivity. Qed.
Print Assumptions C97_refuted.
(** For instance every DSN without a slash. *)
Theorem C97_refuted_slash : forall params_ok params_text F cfg,
  m_dsn cfg <> "" -> lacks "/" (m_dsn cfg) -> make_pool params_ok params_text F cfg = MPanic.
Proof.
  intros pok ptx F cfg N L. apply (C97_refuted pok ptx F cfg (Source (m_dsn cfg) None)); [now apply C47_dsn|].
  cbn [o_dsn]. unfold parse_dsn. rewrite split_last_none by exact L. destruct (m_dsn cfg); [congruence|reflexivity].
Qed.
Print Assumptions C97_refuted_slash.
Example C97_example :
  make_pool yes text no_files (MySQL "" "root:secret@localhost" "" "" "" "" "" "" empty_tls "" None) = MPanic /\
  make_pool yes text no_files (MySQL "" "root:secret@tcp(localhost)/" "" "" "" "" "" "" empty_tls "" None)
  = MPool (DCfg "root" "secret" "tcp" "localhost:3306" "" None) "root:...@tcp(localhost:3306)/".
Proof. vm_compute. auto. Qed.

(** Settings (no DSN) never panic, whatever the user name and the password are, when the driver
    accepts the three lists of parameters that are used and addresses and database have none of
    the characters that separate the parts of a DSN. *)
Theorem C97_settings_partial : forall params_ok params_text F cfg cnf,
  m_dsn cfg = "" ->
  (m_mycnf cfg = "" -> cnf = None) -> (m_mycnf cfg <> "" -> cnf = f_cnf F (m_mycnf cfg)) ->
  params_ok "parseTime=true" = true -> params_ok "parseTime=true&tls=benchmark" = true ->
  params_ok "parseTime=true&tls=rds" = true ->
  lacks "@" (m_host cfg) -> lacks "@" (m_socket cfg) ->
  (forall get, cnf = Some get -> lacks "@" (get "host") /\ lacks "@" (get "port") /\ lacks "@" (get "socket")) ->
  lacks "/" (m_db cfg) -> lacks "?" (m_db cfg) ->
  make_pool params_ok params_text F cfg <> MPanic.
Proof.
  intros pok ptx F cfg cnf Hd Hc0 Hc1 O1 O2 O3 A1 A2 A3 D1 D2.
  destruct (set_dsn F cfg) as [src|] eqn:S; [|unfold make_pool; rewrite S; discriminate].
  destruct (C47_settings_partial F cfg src cnf S Hd Hc0 Hc1)
    as (user & password & cred & net & addr & socket & host & opts & E & _ & EC & _ & _ & CS & CH & N1 & N2 & O & _).
  assert (CH2 : forall own f dflt eff (Q : string -> Prop), chosen own cnf f dflt eff -> Q own -> Q dflt ->
     (forall get, cnf = Some get -> Q (f get)) -> Q eff).
  { intros own f dflt eff Q (X1 & X2 & X3) Qo Qd Qg. destruct (string_dec own "") as [EO|]; [|now rewrite X1].
    destruct cnf as [get|].
    - destruct (string_dec (f get) "") as [EF|NF].
      + rewrite X3; auto. intros g [= <-]. exact EF.
      + rewrite (X2 EO get eq_refl NF). auto.
    - rewrite X3; auto. intros g [=]. }
  assert (LS : lacks "@" socket).
  { apply (CH2 _ _ _ _ _ CS); auto; [exact I|]. intros get G. apply A3, G. }
  assert (LH : lacks "@" host).
  { apply (CH2 _ _ _ _ _ CH); auto; [repeat constructor; discriminate|]. intros get G. destruct (A3 get G) as (B1 & B2 & _).
    unfold cnf_host. destruct (get "port") eqn:EP; [exact B1|]. rewrite <- EP in *. apply without_app. split; [exact B1|].
    cbn [append]. split; [discriminate|exact B2]. }
  assert (NA : without "@" addr /\ (net = "tcp" \/ net = "unix")).
  { destruct (string_dec socket "") as [Z|Z].
    - destruct (N2 Z) as [-> ->]. split; [exact LH|auto].
    - destruct (N1 Z) as [-> ->]. split; [exact LS|auto]. }
  destruct NA as (NA1 & NE).
  assert (NA2 : without "@" net /\ without "(" net) by (destruct NE as [-> | ->]; split; repeat constructor; discriminate).
  destruct NA2 as [NA2 NA3].
  assert (PO : pok ("parseTime=true" ++ opts) = true) by (destruct O as [->|[->| ->]]; assumption).
  assert (NP : exists c, parse_dsn pok (o_dsn src) = Some c).
  { rewrite E. unfold parse_dsn.
    replace (cred ++ "@" ++ net ++ "(" ++ addr ++ ")/" ++ m_db cfg ++ "?parseTime=true" ++ opts)
      with ((cred ++ String "@" (net ++ String "(" (addr ++ String ")" ""))) ++ String "/" (m_db cfg ++ String "?" ("parseTime=true" ++ opts))).
    2:{ rewrite !sapp_assoc. cbn [append]. rewrite !sapp_assoc. cbn [append]. rewrite !sapp_assoc. reflexivity. }
    rewrite split_last_at.
    2:{ apply without_app. split; [exact D1|]. split; [discriminate|]. apply without_app.
        split; [repeat constructor; discriminate|]. destruct O as [->|[->| ->]]; repeat constructor; discriminate. }
    rewrite split_first_at by exact D2. rewrite PO.
    rewrite split_last_at.
    2:{ apply without_app. split; [exact NA2|]. split; [discriminate|]. apply without_app. split; [exact NA1|]. repeat constructor; discriminate. }
    destruct (match split_first ":" cred with Some (a, b) => (a, b) | None => (cred, "") end) as [u w].
    rewrite split_first_at by exact NA3. rewrite chop_at.
    unfold normalize. cbn [v_net v_addr v_user v_pass v_db v_params].
    destruct NE as [-> | ->]; destruct addr; eexists; reflexivity. }
  destruct NP as (c & NP). destruct (C97_accepted_partial pok ptx F cfg src c S NP) as (lg & ->). discriminate.
Qed.
Print Assumptions C97_settings_partial.
(** With a slash in the database, say, they do. *)
Example C97_settings_example :
  make_pool (fun p => String.eqb p "parseTime=true") text no_files (MySQL "a/b" "" "" "" "" "" "" "" empty_tls "app" None) = MPanic /\
  make_pool (fun p => String.eqb p "parseTime=true") text no_files (MySQL "ab" "" "" "" "" "" "" "" empty_tls "a:b@c" None)
  = MPool (DCfg "a" "b@c" "tcp" "127.0.0.1:3306" "ab" (Some "parseTime=true")) "a:...@tcp(127.0.0.1:3306)/ab?parseTime=true".
Proof. vm_compute. auto. Qed.
