(** C90-C91: the URLs of a remote's requests: lemmas and properties. *)
From Verif Require Import Prelude ConfigModel UrlModel.
#[local] Open Scope string_scope.
#[local] Open Scope list_scope.

(** All characters of a string; letters and digits, of which the keys and IDs are made. *)
Fixpoint all_chars (P : ascii -> bool) (s : string) : bool :=
  match s with "" => true | String c r => (P c && all_chars P r)%bool end.
(** Without [c]. *)
Definition lacks (c : ascii) (s : string) : Prop := all_chars (fun x => negb (Ascii.eqb x c)) s = true.

(** * Lemmas *)
Lemma all_app P a b : all_chars P (a ++ b) = (all_chars P a && all_chars P b)%bool.
Proof. induction a as [|c a IH]; [reflexivity|]. cbn. now rewrite IH, andb_assoc. Qed.
Lemma all_impl (P Q : ascii -> bool) s : (forall c, P c = true -> Q c = true) -> all_chars P s = true -> all_chars Q s = true.
Proof.
  intros H. induction s as [|c s IH]; [reflexivity|]. cbn. rewrite !andb_true_iff. intros [H1 H2]. auto.
Qed.
Lemma lacks_app c a b : lacks c (a ++ b) <-> lacks c a /\ lacks c b.
Proof. unfold lacks. rewrite all_app, andb_true_iff. tauto. Qed.
Lemma lacks_cons c x r : lacks c (String x r) <-> x <> c /\ lacks c r.
Proof. unfold lacks. cbn. rewrite andb_true_iff, negb_true_iff, Ascii.eqb_neq. tauto. Qed.

Lemma append_assoc (a b c : string) : ((a ++ b) ++ c = a ++ b ++ c)%string.
Proof. induction a as [|x a IH]; [reflexivity|]. cbn. now rewrite IH. Qed.

Lemma cut_lacks c a r : lacks c a -> cut c (a ++ String c r)%string = (a, Some r).
Proof.
  induction a as [|x a IH]; cbn [append cut].
  - now rewrite Ascii.eqb_refl.
  - intros H. apply lacks_cons in H as [H1 H2]. destruct (Ascii.eqb_spec x c); [contradiction|]. now rewrite (IH H2).
Qed.
Lemma cut_none c a : lacks c a -> cut c a = (a, None).
Proof.
  induction a as [|x a IH]; cbn [cut]; [reflexivity|].
  intros H. apply lacks_cons in H as [H1 H2]. destruct (Ascii.eqb_spec x c); [contradiction|]. now rewrite (IH H2).
Qed.
Lemma split_lacks c a : lacks c a -> split c a = [a].
Proof.
  induction a as [|x a IH]; cbn [split]; [reflexivity|].
  intros H. apply lacks_cons in H as [H1 H2]. destruct (Ascii.eqb_spec x c); [contradiction|]. now rewrite (IH H2).
Qed.
Lemma split_app c a r : lacks c a -> split c (a ++ String c r)%string = a :: split c r.
Proof.
  induction a as [|x a IH]; cbn [append split].
  - now rewrite Ascii.eqb_refl.
  - intros H. apply lacks_cons in H as [H1 H2]. destruct (Ascii.eqb_spec x c); [contradiction|]. now rewrite (IH H2).
Qed.

Lemma unescape_char c t : unescape (escape_char c ++ t) = match unescape t with Some u => Some (String c u) | None => None end.
Proof. destruct c as [[] [] [] [] [] [] [] []]; reflexivity. Qed.
Lemma unescape_escape s : unescape (escape s) = Some s.
Proof. induction s as [|c s IH]; [reflexivity|]. cbn [escape]. rewrite unescape_char. now rewrite IH. Qed.

Definition safe (c : ascii) : bool := (plain c || Ascii.eqb c "+" || Ascii.eqb c "%")%bool.
Lemma escape_safe s : all_chars safe (escape s) = true.
Proof.
  induction s as [|c s IH]; [reflexivity|]. cbn [escape]. rewrite all_app, IH, andb_true_r.
  destruct c as [[] [] [] [] [] [] [] []]; reflexivity.
Qed.
Lemma safe_lacks c s : safe c = false -> all_chars safe s = true -> lacks c s.
Proof.
  intros H. apply all_impl. intros x Hx. rewrite negb_true_iff, Ascii.eqb_neq. congruence.
Qed.
Lemma plain_safe s : all_chars plain s = true -> all_chars safe s = true.
Proof. apply all_impl. intros c H. unfold safe. now rewrite H. Qed.
Lemma plain_escape s : all_chars plain s = true -> escape s = s.
Proof.
  induction s as [|c s IH]; [reflexivity|]. cbn. rewrite andb_true_iff. intros [H1 H2].
  unfold escape_char. rewrite H1. cbn. now rewrite IH.
Qed.
Lemma unescape_plain s : all_chars plain s = true -> unescape s = Some s.
Proof. intros H. rewrite <- (plain_escape s H) at 1. apply unescape_escape. Qed.

Lemma parse_param_kv k v : all_chars plain k = true -> parse_param (k ++ "=" ++ escape v)%string = [(k, v)].
Proof.
  intros Hk. unfold parse_param.
  assert (N : String.eqb (k ++ "=" ++ escape v) "" = false) by (destruct k; reflexivity). rewrite N.
  rewrite cut_none.
  2:{ apply lacks_app. split; [apply safe_lacks; [reflexivity|now apply plain_safe]|].
      apply lacks_app. split; [reflexivity|]. apply safe_lacks; [reflexivity|apply escape_safe]. }
  cbn [append]. rewrite cut_lacks by (apply safe_lacks; [reflexivity|now apply plain_safe]).
  now rewrite unescape_escape, (unescape_plain k Hk).
Qed.

Lemma kv_lacks c k v : safe c = false -> c <> "="%char -> all_chars plain k = true -> lacks c (k ++ "=" ++ escape v).
Proof.
  intros Hc He Hk. apply lacks_app. split; [apply safe_lacks; [exact Hc|now apply plain_safe]|].
  apply lacks_app. split; [|apply safe_lacks; [exact Hc|apply escape_safe]].
  apply lacks_cons. split; [congruence|reflexivity].
Qed.

Definition plain_keys (params : list (string * string)) : Prop := forall k v, In (k, v) params -> all_chars plain k = true.

Lemma join_snoc params last : plain_keys params ->
  flat_map parse_param (split "&" (join "&" (map (fun kv => (fst kv ++ "=" ++ escape (snd kv))%string) params ++ [last])))
  = params ++ flat_map parse_param (split "&" last).
Proof.
  induction params as [|[k v] params IH]; intros H; [reflexivity|].
  assert (Hk : all_chars plain k = true) by (eapply H; now left).
  cbn [map List.app fst snd].
  assert (J : forall x l, l <> [] -> join "&" (x :: l) = (x ++ "&" ++ join "&" l)%string) by (intros x [|y l]; [congruence|reflexivity]).
  rewrite J by (destruct params; discriminate).
  change ("&" ++ ?x)%string with (String "&" x). rewrite split_app by (apply kv_lacks; [reflexivity|discriminate|exact Hk]).
  cbn [flat_map]. rewrite parse_param_kv by exact Hk. cbn [List.app]. rewrite IH; [reflexivity|].
  intros k' v' Hi. eapply H. right. exact Hi.
Qed.

Lemma value_app k params q : (forall v, ~ In (k, v) params) -> value k (params ++ q) = value k q.
Proof.
  induction params as [|[k' v] params IH]; intros H; [reflexivity|]. cbn.
  destruct (String.eqb_spec k k') as [<-|]; [destruct (H v); now left|]. apply IH. intros v' Hi. apply (H v'). now right.
Qed.
Lemma clean_lacks s : lacks "010" s -> lacks "013" s -> clean s = s.
Proof.
  induction s as [|c s IH]; [reflexivity|]. intros H1 H2. apply lacks_cons in H1 as [N1 H1]. apply lacks_cons in H2 as [N2 H2].
  cbn. destruct (Ascii.eqb_spec c "010"); [contradiction|]. destruct (Ascii.eqb_spec c "013"); [contradiction|]. cbn. now rewrite IH.
Qed.
Lemma plain_lacks c s : plain c = false -> all_chars plain s = true -> lacks c s.
Proof. intros H. apply all_impl. intros x Hx. rewrite negb_true_iff, Ascii.eqb_neq. congruence. Qed.

Lemma join_lacks c l : c <> "&"%char -> (forall x, In x l -> lacks c x) -> lacks c (join "&" l).
Proof.
  intros Hc. induction l as [|x l IH]; intros H; [reflexivity|]. destruct l as [|y l].
  - apply H. now left.
  - change (join "&" (x :: y :: l)) with (x ++ "&" ++ join "&" (y :: l))%string.
    apply lacks_app. split; [apply H; now left|]. apply lacks_app. split.
    + apply lacks_cons. split; [congruence|reflexivity].
    + apply IH. intros z Hz. apply H. now right.
Qed.

(** ** C90: the server sees what the remote says *)

(** A request goes to the server's address and path, and its parameters are the name of the instance,
    those of the request and the stage ID, whatever bytes the name and the values are made of. *)
Theorem C90_request : forall addr path name params sid,
  lacks "?" addr -> lacks "#" addr -> lacks "?" path -> lacks "#" path ->
  (forall k v, In (k, v) params -> all_chars plain k = true) -> all_chars plain sid = true ->
  parse_url (url addr path name params sid) = ((addr ++ path)%string, ("name", name) :: params ++ [("stage-id", sid)]).
Proof.
  intros addr path name params sid A1 A2 P1 P2 Hk Hs.
  assert (E : url addr path name params sid = ((addr ++ path) ++ String "?" (("name" ++ "=" ++ escape name) ++ String "&"
     (join "&" (map (fun kv => (fst kv ++ "=" ++ escape (snd kv))%string) params ++ [("stage-id=" ++ sid)%string]))))%string).
  { unfold url. rewrite append_assoc. reflexivity. }
  unfold parse_url. rewrite E. rewrite (cut_none "#").
  2:{ apply lacks_app. split; [now apply lacks_app|]. apply lacks_cons. split; [discriminate|].
      apply lacks_app. split; [apply kv_lacks; [reflexivity|discriminate|reflexivity]|].
      apply lacks_cons. split; [discriminate|]. apply join_lacks; [discriminate|].
      intros x Hx. apply in_app_iff in Hx as [Hx|[<-|[]]].
      - apply in_map_iff in Hx as ([k v] & <- & Hi). apply kv_lacks; [reflexivity|discriminate|eapply Hk; eassumption].
      - apply lacks_app. split; [reflexivity|]. now apply plain_lacks. }
  cbn [fst]. rewrite cut_lacks by now apply lacks_app.
  unfold parse_query. rewrite split_app by (apply kv_lacks; [reflexivity|discriminate|reflexivity]).
  cbn [flat_map]. rewrite parse_param_kv by reflexivity. cbn [List.app].
  rewrite join_snoc by exact Hk.
  rewrite split_lacks by (apply lacks_app; split; [reflexivity|now apply plain_lacks]).
  cbn [flat_map]. rewrite List.app_nil_r. rewrite <- (plain_escape sid Hs) at 1.
  change ("stage-id=" ++ escape sid)%string with ("stage-id" ++ "=" ++ escape sid)%string.
  now rewrite parse_param_kv.
Qed.
Print Assumptions C90_request.

(** So the handlers of the server take the name and the stage ID of the remote. *)
Theorem C90_server : forall addr path name params sid,
  lacks "?" addr -> lacks "#" addr -> lacks "?" path -> lacks "#" path ->
  (forall k v, In (k, v) params -> all_chars plain k = true /\ k <> "stage-id") -> all_chars plain sid = true ->
  lacks "010" name -> lacks "013" name ->
  server_sees (url addr path name params sid) = Some (name, sid).
Proof.
  intros addr path name params sid A1 A2 P1 P2 Hk Hs N1 N2. unfold server_sees.
  rewrite C90_request; auto; [|intros k v Hi; now apply (Hk k v)]. cbn [snd value].
  change (String.eqb "name" "name") with true. change (String.eqb "stage-id" "name") with false. cbv iota.
  rewrite value_app by (intros v Hi; now destruct (Hk _ _ Hi)). cbn [value]. rewrite String.eqb_refl.
  rewrite (clean_lacks name N1 N2).
  now rewrite clean_lacks by (apply plain_lacks; [reflexivity|exact Hs]).
Qed.
Print Assumptions C90_server.

(** And the file that is fetched is the one asked for, whatever the stage is called. *)
Theorem C90_file : forall addr name stage_name i sid,
  lacks "?" addr -> lacks "#" addr -> all_chars plain sid = true -> all_digits i = true ->
  server_file (url addr "/file" name [("stage", stage_name); ("i", i)] sid) = Some i.
Proof.
  intros addr name st i sid A1 A2 Hs Hi. unfold server_file.
  rewrite C90_request; auto; try reflexivity.
  2:{ intros k v [E|[E|[]]]; inversion E; reflexivity. }
  cbn [snd value List.app]. cbn [String.eqb Ascii.eqb Bool.eqb].
  assert (Hp : all_chars plain i = true).
  { clear -Hi. induction i as [|c i IH]; [reflexivity|]. cbn in Hi. apply andb_true_iff in Hi as [H1 H2]. cbn [all_chars].
    rewrite (IH H2), andb_true_r. destruct c as [[] [] [] [] [] [] [] []]; try discriminate H1; reflexivity. }
  now rewrite clean_lacks by (apply plain_lacks; [reflexivity|exact Hp]).
Qed.
Print Assumptions C90_file.

(** What is sent stays one word of visible bytes of ASCII, as the request line needs, whatever bytes
    the name and the values are made of. *)
Definition visible (c : ascii) : bool := ((33 <=? N_of_ascii c) && (N_of_ascii c <=? 126))%N%bool.
Lemma safe_visible s : all_chars safe s = true -> all_chars visible s = true.
Proof. apply all_impl. intros [[] [] [] [] [] [] [] []]; vm_compute; auto. Qed.
Lemma join_visible l : Forall (fun x => all_chars visible x = true) l -> all_chars visible (join "&" l) = true.
Proof.
  induction 1 as [|x l Hx H IH]; [reflexivity|]. cbn [join]. destruct l as [|y l]; [exact Hx|].
  rewrite all_app, Hx. cbn [andb append all_chars]. exact IH.
Qed.
Theorem C90_bytes : forall addr path name params sid,
  all_chars visible addr = true -> all_chars visible path = true -> all_chars visible sid = true ->
  (forall k v, In (k, v) params -> all_chars visible k = true) ->
  all_chars visible (url addr path name params sid) = true.
Proof.
  intros addr path name params sid A P S K. unfold url.
  rewrite !all_app, A, P, (safe_visible _ (escape_safe name)). cbn [andb all_chars visible].
  apply andb_true_iff. split; [reflexivity|]. apply join_visible. apply Forall_app. split.
  - apply Forall_forall. intros x Hx. apply in_map_iff in Hx as ([k v] & <- & Hi). cbn [fst snd].
    rewrite all_app, (K k v Hi). cbn [andb append all_chars]. rewrite (safe_visible _ (escape_safe v)). reflexivity.
  - constructor; [|constructor]. rewrite all_app, S. reflexivity.
Qed.
Print Assumptions C90_bytes.

Example C90_example :
  url "http://h:33075" "/boot" "r 1&name=x" [("stage", "a=b;c"); ("i", "0")] "cg1s0d"
    = "http://h:33075/boot?name=r+1%26name%3Dx&stage=a%3Db%3Bc&i=0&stage-id=cg1s0d" /\
  server_sees (url "http://h:33075" "/boot" "r 1&name=x" [("stage", "a=b;c"); ("i", "0")] "cg1s0d") = Some ("r 1&name=x", "cg1s0d") /\
  server_file (url "http://h:33075" "/file" "r#?%" [("stage", "a=b;c"); ("i", "12")] "cg1s0d") = Some "12" /\
  lacks "?" "http://h:33075" /\ lacks "#" "http://h:33075" /\ all_chars plain "cg1s0d" = true /\
  lacks "010" "r 1&name=x" /\ lacks "013" "r 1&name=x" /\ all_digits "12" = true.
Proof. repeat split. Qed.
Example C90_bytes_example : all_chars visible "http://10.0.0.1:33075" = true /\ all_chars visible "/boot" = true /\
  all_chars visible "a1" = true /\ escape (String (ascii_of_nat 127) (String (ascii_of_nat 10) " é")) = "%7F%0A+%C3%A9".
Proof. repeat split. Qed.
(** Without the escape a name would be seen as another one. *)
Example C90_example_unescaped : snd (parse_url "http://h/boot?name=a&name=b") = [("name", "a"); ("name", "b")].
Proof. reflexivity. Qed.

(** ** C91: the address given with --client *)
Lemma has_port_lacks h : lacks ":" h -> has_port h = false.
Proof.
  induction h as [|c h IH]; [reflexivity|]. intros H. apply lacks_cons in H as [N H]. cbn [has_port].
  destruct (Ascii.eqb_spec c ":"); [contradiction|]. cbn. auto.
Qed.
Lemma digits_colon p : all_digits p = true -> lacks ":" p.
Proof.
  induction p as [|c p IH]; [reflexivity|]. cbn [all_digits]. rewrite andb_true_iff. intros [H1 H2].
  apply lacks_cons. split; [|auto]. intros ->. discriminate.
Qed.
Lemma has_port_app h p : all_digits p = true -> p <> "" -> has_port (h ++ ":" ++ p) = true.
Proof.
  intros Hd Hn. induction h as [|c h IH].
  - cbn [append has_port]. rewrite Hd. destruct p; [congruence|]. reflexivity.
  - cbn [append has_port] in *. now rewrite IH, orb_true_r.
Qed.
Lemma starts_inv s : starts_http s = true -> exists t, s = ("http" ++ String ":" (String "/" t))%string.
Proof.
  assert (G : forall p s, String.prefix p s = true -> exists t, s = (p ++ t)%string).
  { clear. induction p as [|x p IH]; intros s H; [now exists s|]. destruct s as [|y s]; [discriminate|]. cbn in H.
    destruct (ascii_dec x y) as [->|]; [|discriminate]. destruct (IH _ H) as (t & ->). now exists t. }
  intros H. destruct (G _ _ H) as (t & ->). now eexists.
Qed.
Lemma not_http h p : lacks ":" h -> all_digits p = true -> starts_http (h ++ ":" ++ p) = false.
Proof.
  intros H Hp. destruct (starts_http _) eqn:E; [|reflexivity]. exfalso.
  apply starts_inv in E as (t & E). apply (f_equal (cut ":")) in E.
  change (":" ++ p)%string with (String ":" p) in E. rewrite cut_lacks in E by exact H.
  rewrite cut_lacks in E by reflexivity. inversion E; subst. discriminate Hp.
Qed.
Lemma yes_http h : starts_http ("http://" ++ h) = true.
Proof. unfold starts_http. destruct h; reflexivity. Qed.

(** Where the requests go: to the host and port given, or to port 33075, with http:// or without.
    Missing: an address that ends with a slash. *)
Theorem C91_address_partial : forall h p, lacks ":" h -> all_digits p = true -> p <> "" ->
  client_addr h = ("http://" ++ h ++ ":33075")%string /\
  client_addr (h ++ ":" ++ p) = ("http://" ++ h ++ ":" ++ p)%string /\
  client_addr ("http://" ++ h) = ("http://" ++ h ++ ":33075")%string /\
  client_addr ("http://" ++ h ++ ":" ++ p) = ("http://" ++ h ++ ":" ++ p)%string.
Proof.
  intros h p Hh Hp Hn. unfold client_addr, new_client, with_port.
  split; [|split; [|split]].
  - rewrite (has_port_lacks h Hh). rewrite not_http by auto. reflexivity.
  - rewrite has_port_app by auto. rewrite not_http by auto. reflexivity.
  - assert (N : has_port ("http://" ++ h) = false).
    { cbn [append has_port]. cbn [Ascii.eqb Bool.eqb]. cbn [all_digits is_digit]. cbn. now rewrite has_port_lacks. }
    rewrite N. rewrite append_assoc. now rewrite yes_http.
  - assert (Y : has_port ("http://" ++ h ++ ":" ++ p) = true).
    { rewrite <- append_assoc. now apply has_port_app. }
    rewrite Y. now rewrite yes_http.
Qed.
Print Assumptions C91_address_partial.
Example C91_example : lacks ":" "10.0.0.1" /\ all_digits "1234" = true /\
  client_addr "10.0.0.1" = "http://10.0.0.1:33075" /\ client_addr "http://10.0.0.1:1234" = "http://10.0.0.1:1234".
Proof. repeat split. Qed.

(** C91 is false: the slash is cut off too late and only for messages and the reporter; requests go
    to another path. *)
Theorem C91_refuted :
  parse_url (url (client_addr "http://10.0.0.1:1234/") "/boot" "r" [] "") =
    ("http://10.0.0.1:1234/:33075/boot", [("name", "r"); ("stage-id", "")]) /\
  parse_url (url (client_addr "10.0.0.1/") "/boot" "r" [] "") =
    ("http://10.0.0.1/:33075/boot", [("name", "r"); ("stage-id", "")]).
Proof. split; reflexivity. Qed.
Print Assumptions C91_refuted.
