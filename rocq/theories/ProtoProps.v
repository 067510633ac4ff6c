(** The client's requests: the properties. *)
From Verif Require Import Prelude ConfigModel ConfigProofs TrxModel ApiModel ApiSpec ApiProofs ApiStuckProofs ApiProps ProtoModel.
#[local] Open Scope string_scope.
#[local] Open Scope list_scope.

(** After this outcome request tries again: the context is not done, and there was no answer or one
    that is neither 200 nor 205. *)
Definition retried (a : attempt) : Prop :=
  a_ctx a = false
  /\ (a_reply a = NoReply \/ exists code body, a_reply a = Reply code (Some body) /\ code <> 200%nat /\ code <> 205%nat).

(** * Lemmas *)
Section Loop.
Variable tries : Z.

Definition allowed (try : Z) : Prop := tries = (-1)%Z \/ (try < tries)%Z.

Lemma loop_retried try buf a l : allowed try -> retried a ->
  request_loop tries try buf (a :: l)
  = (buf :: fst (request_loop tries (try + 1) (sdrop (a_read a) buf) l),
     snd (request_loop tries (try + 1) (sdrop (a_read a) buf) l)).
Proof.
  intros Ha [Hc Hr]. cbn -[request_loop Z.eqb Z.ltb]. cbn [request_loop].
  replace (Z.eqb tries (-1) || Z.ltb try tries)%bool with true.
  - rewrite Hc. destruct Hr as [->|(code & body & -> & H1 & H2)]; [reflexivity|].
    apply Nat.eqb_neq in H1, H2. now rewrite H1, H2.
  - symmetry. apply orb_true_iff. destruct Ha; [left; now apply Z.eqb_eq|right; now apply Z.ltb_lt].
Qed.

Lemma loop_stop try buf l : ~ allowed try -> request_loop tries try buf l = ([], Some Failed).
Proof.
  intros Ha. replace (request_loop tries try buf l) with (if (Z.eqb tries (-1) || Z.ltb try tries)%bool then
     request_loop tries try buf l else ([], Some Failed)).
  - destruct (Z.eqb_spec tries (-1)); [exfalso; apply Ha; now left|]. destruct (Z.ltb_spec try tries); [exfalso; apply Ha; now right|]. reflexivity.
  - destruct l; cbn [request_loop]; destruct (Z.eqb tries (-1) || Z.ltb try tries)%bool; reflexivity.
Qed.

Definition last_of (a : attempt) : option result :=
  match a_reply a with
  | NoReply => if a_ctx a then Some Cancelled else None
  | Reply _ None => Some ReadError
  | Reply code (Some body) =>
      if Nat.eqb code 200 then Some (Done 200 (Some body)) else if Nat.eqb code 205 then Some (Done 205 None)
      else if a_ctx a then Some Cancelled else None
  end.
Lemma last_retried a : last_of a = None <-> retried a.
Proof.
  unfold last_of, retried. destruct a as [rd [|code [body|]] ctx]; cbn.
  - destruct ctx; split; try easy; auto.
  - destruct (Nat.eqb_spec code 200); [split; [easy|]; intros [_ [|(? & ? & [= <- <-] & ? & ?)]]; easy|].
    destruct (Nat.eqb_spec code 205); [split; [easy|]; intros [_ [|(? & ? & [= <- <-] & ? & ?)]]; easy|].
    destruct ctx; split; try easy. intros _. split; [reflexivity|]. right. eauto.
  - split; [easy|]. intros [_ [|(? & ? & ? & _)]]; easy.
Qed.
Lemma loop_last try buf a l r : allowed try -> last_of a = Some r -> request_loop tries try buf (a :: l) = ([buf], Some r).
Proof.
  intros Ha. cbn [request_loop].
  replace (Z.eqb tries (-1) || Z.ltb try tries)%bool with true.
  - unfold last_of. destruct (a_reply a) as [|code [body|]].
    + now destruct (a_ctx a); intros [= <-].
    + destruct (Nat.eqb code 200); [now intros [= <-]|]. destruct (Nat.eqb code 205); [now intros [= <-]|]. now destruct (a_ctx a); intros [= <-].
    + now intros [= <-].
  - symmetry. apply orb_true_iff. destruct Ha; [left; now apply Z.eqb_eq|right; now apply Z.ltb_lt].
Qed.

Lemma allowed_dec try : allowed try \/ ~ allowed try.
Proof. unfold allowed. destruct (Z.eq_dec tries (-1)); [tauto|]. destruct (Z_lt_dec try tries); tauto. Qed.
End Loop.

(** How it ends: some attempts are retried, then one decides, or there are no more tries. *)
Lemma loop_shape tries : forall l try buf,
  exists l1 l2, l = l1 ++ l2 /\ Forall retried l1
    /\ (forall j, (j < List.length l1)%nat -> allowed tries (try + Z.of_nat j))
    /\ match snd (request_loop tries try buf l) with
       | None => l2 = [] /\ allowed tries (try + Z.of_nat (List.length l1)) /\ List.length (fst (request_loop tries try buf l)) = List.length l1
       | Some r =>
           (r = Failed /\ ~ allowed tries (try + Z.of_nat (List.length l1)) /\ List.length (fst (request_loop tries try buf l)) = List.length l1)
           \/ (allowed tries (try + Z.of_nat (List.length l1)) /\ List.length (fst (request_loop tries try buf l)) = S (List.length l1)
               /\ exists a l3, l2 = a :: l3 /\ last_of a = Some r)
       end.
Proof.
  induction l as [|a l IH]; intros try buf.
  - exists [], []. split; [reflexivity|]. split; [constructor|]. split; [intros j Hj; cbn in Hj; lia|]. cbn [List.length]. rewrite Z.add_0_r.
    destruct (allowed_dec tries try) as [Ha|Ha].
    + cbn [request_loop]. replace (Z.eqb tries (-1) || Z.ltb try tries)%bool with true; [cbn; auto|].
      symmetry. apply orb_true_iff. destruct Ha; [left; now apply Z.eqb_eq|right; now apply Z.ltb_lt].
    + rewrite (loop_stop _ _ _ _ Ha). cbn. auto.
  - destruct (allowed_dec tries try) as [Ha|Ha].
    2: { exists [], (a :: l). split; [reflexivity|]. split; [constructor|]. split; [intros j Hj; cbn in Hj; lia|]. cbn [List.length]. rewrite Z.add_0_r.
         rewrite (loop_stop _ _ _ _ Ha). cbn. auto. }
    destruct (last_of a) as [r|] eqn:El.
    + exists [], (a :: l). split; [reflexivity|]. split; [constructor|]. split; [intros j Hj; cbn in Hj; lia|]. cbn [List.length]. rewrite Z.add_0_r.
      rewrite (loop_last tries try buf a l r Ha El). cbn. right. split; [exact Ha|]. split; [reflexivity|]. eauto.
    + apply last_retried in El. rewrite (loop_retried tries try buf a l Ha El). cbn [fst snd].
      destruct (IH (try + 1)%Z (sdrop (a_read a) buf)) as (l1 & l2 & -> & Hf & Hj & H).
      exists (a :: l1), l2. split; [reflexivity|]. split; [now constructor|]. split.
      * intros [|j] Hl; [now rewrite Z.add_0_r|]. cbn in Hl. replace (try + Z.of_nat (S j))%Z with (try + 1 + Z.of_nat j)%Z by lia. apply Hj. lia.
      * replace (try + Z.of_nat (List.length (a :: l1)))%Z with (try + 1 + Z.of_nat (List.length l1))%Z by (cbn [List.length]; lia).
        destruct (snd (request_loop tries (try + 1) (sdrop (a_read a) buf) (l1 ++ l2))); cbn [List.length].
        -- destruct H as [(-> & H1 & H2)|(H1 & H2 & H3)]; [left|right]; rewrite H2; auto.
        -- destruct H as (H1 & H2 & H3). rewrite H3. auto.
Qed.

Lemma sdrop_suffix n s : exists p, s = (p ++ sdrop n s)%string.
Proof.
  revert s. induction n as [|n IH]; intros [|c s]; try (now exists ""). destruct (IH s) as [p Hp]. exists (String c p). cbn. now rewrite <- Hp.
Qed.
Lemma append_assoc (a b c : string) : ((a ++ b) ++ c)%string = (a ++ b ++ c)%string.
Proof. induction a; cbn; congruence. Qed.
Lemma loop_body tries : forall l try buf i b, nth_error (fst (request_loop tries try buf l)) i = Some b ->
  (exists p, buf = (p ++ b)%string)
  /\ ((forall j a, (j < i)%nat -> nth_error l j = Some a -> a_read a = 0%nat) -> b = buf).
Proof.
  induction l as [|a l IH]; intros try buf i b H.
  - cbn [request_loop] in H. destruct (Z.eqb tries (-1) || Z.ltb try tries)%bool; destruct i; discriminate.
  - destruct (allowed_dec tries try) as [Ha|Ha]; [|rewrite (loop_stop _ _ _ _ Ha) in H; destruct i; discriminate].
    destruct (last_of a) as [r|] eqn:El.
    + rewrite (loop_last tries try buf a l r Ha El) in H. destruct i as [|[|i]]; try discriminate. injection H as <-. split; [now exists ""|reflexivity].
    + apply last_retried in El. rewrite (loop_retried tries try buf a l Ha El) in H. destruct i as [|i].
      * injection H as <-. split; [now exists ""|reflexivity].
      * destruct (IH _ _ _ _ H) as [[p Hp] Hb]. destruct (sdrop_suffix (a_read a) buf) as [q Hq]. split.
        -- exists (q ++ p)%string. rewrite append_assoc, <- Hp. exact Hq.
        -- intros Hj. rewrite Hb; [|intros j a' Hl; apply (Hj (S j)); lia].
           rewrite (Hj 0%nat a); [destruct buf; reflexivity|lia|reflexivity].
Qed.

(** * C52 *)
(** At most the configured number of attempts. *)
Theorem C52_attempts : forall tries data l, tries <> (-1)%Z ->
  (Z.of_nat (List.length (fst (request tries data l))) <= Z.max 0 tries)%Z.
Proof.
  intros tries data l Ht. unfold request. destruct (loop_shape tries l 0 data) as (l1 & l2 & _ & _ & Hj & H).
  assert (X : (Z.of_nat (List.length l1) <= Z.max 0 tries)%Z).
  { destruct (List.length l1) as [|n]; [lia|]. destruct (Hj n) as [|]; lia. }
  destruct (snd (request_loop tries 0 data l)); [destruct H as [(_ & _ & ->)|([|H1] & -> & _)]; lia|].
  destruct H as (_ & _ & ->). exact X.
Qed.
Example C52_attempts_ex : List.length (fst (request 3 "x" (repeat (Att 0 NoReply false) 10))) = 3%nat
  /\ List.length (fst (request (-1) "x" (repeat (Att 0 NoReply false) 10))) = 10%nat.
Proof. split; reflexivity. Qed.

(** The call succeeds exactly if an attempt within the number of tries is answered with 200 or 205
    (and the answer can be read) before the call is given up. *)
Theorem C52_success : forall tries data l code b,
  snd (request tries data l) = Some (Done code b) <->
  exists l1 a l2 body, l = l1 ++ a :: l2 /\ Forall retried l1
    /\ (tries = (-1)%Z \/ (Z.of_nat (List.length l1) < tries)%Z)
    /\ a_reply a = Reply code (Some body)
    /\ ((code = 200%nat /\ b = Some body) \/ (code = 205%nat /\ b = None)).
Proof.
  intros tries data l code b. unfold request. split.
  - intros H. destruct (loop_shape tries l 0 data) as (l1 & l2 & -> & Hf & Hj & X). rewrite H in X. destruct X as [(E & _)|(Ha & _ & a & l3 & -> & El)]; [discriminate|].
    unfold last_of in El. destruct (a_reply a) as [|cd [body|]] eqn:Er; [destruct (a_ctx a); discriminate| |discriminate].
    exists l1, a, l3, body. split; [reflexivity|]. split; [exact Hf|]. split; [exact Ha|].
    destruct (Nat.eqb_spec cd 200) as [->|]; [injection El as <- <-; auto|].
    destruct (Nat.eqb_spec cd 205) as [->|]; [injection El as <- <-; auto|]. destruct (a_ctx a); discriminate.
  - intros (l1 & a & l2 & body & -> & Hf & Ha & Hr & Hc). change (allowed tries (Z.of_nat (List.length l1))) in Ha.
    rewrite <- (Z.add_0_l (Z.of_nat (List.length l1))) in Ha. revert Ha. generalize 0%Z as try. revert data.
    induction Hf as [|x l1 Hx Hf IH]; cbn [List.length app]; intros data try Ha.
    + cbn in Ha. rewrite Z.add_0_r in Ha. rewrite (loop_last tries try data a l2 (Done code b) Ha); [reflexivity|].
      unfold last_of. rewrite Hr. destruct Hc as [[-> ->]|[-> ->]]; reflexivity.
    + rewrite loop_retried; [|destruct Ha; [now left|right; lia]|exact Hx]. cbn [snd]. apply IH.
      replace (try + 1 + Z.of_nat (List.length l1))%Z with (try + Z.of_nat (S (List.length l1)))%Z by lia. exact Ha.
Qed.
Example C52_success_ex :
  snd (request 3 "x" [Att 1 NoReply false; Att 0 (Reply 412 (Some "")) false; Att 0 (Reply 200 (Some "ok")) false]) = Some (Done 200 (Some "ok")).
Proof. reflexivity. Qed.

(** It fails otherwise: no more tries, the context done or the answer not readable. *)
Theorem C52_failure : forall tries data l r, snd (request tries data l) = Some r ->
  match r with
  | Done _ _ => True
  | Failed => tries <> (-1)%Z /\ exists l1 l2, l = l1 ++ l2 /\ Forall retried l1 /\ Z.of_nat (List.length l1) = Z.max 0 tries
  | ReadError => exists l1 a l2 code, l = l1 ++ a :: l2 /\ Forall retried l1 /\ a_reply a = Reply code None
  | Cancelled => exists l1 a l2, l = l1 ++ a :: l2 /\ Forall retried l1 /\ a_ctx a = true
  end.
Proof.
  intros tries data l r H. unfold request in H. destruct (loop_shape tries l 0 data) as (l1 & l2 & -> & Hf & Hj & X). rewrite H in X.
  destruct X as [(-> & Ha & _)|(Ha & _ & a & l3 & -> & El)].
  - split; [intros ->; apply Ha; now left|]. exists l1, l2. split; [reflexivity|]. split; [exact Hf|].
    assert (tries <> (-1)%Z) by (intros ->; apply Ha; now left).
    destruct (Z.ltb_spec (0 + Z.of_nat (List.length l1)) tries) as [L|L]; [exfalso; apply Ha; now right|].
    destruct (List.length l1) as [|n]; [lia|]. destruct (Hj n) as [|]; lia.
  - unfold last_of in El. destruct (a_reply a) as [|cd [body|]] eqn:Er.
    + destruct (a_ctx a) eqn:Ec; [injection El as <-; eauto 7|discriminate].
    + destruct (Nat.eqb cd 200); [now injection El as <-|]. destruct (Nat.eqb cd 205); [now injection El as <-|].
      destruct (a_ctx a) eqn:Ec; [injection El as <-; eauto 7|discriminate].
    + injection El as <-. eauto 8.
Qed.

(** The first attempt carries the whole body, and so does every attempt before which nothing of the
    body was read; every attempt carries an end of the body.  Missing: the others, see below. *)
Theorem C52_body_partial : forall tries data l i b, nth_error (fst (request tries data l)) i = Some b ->
  (exists p, data = (p ++ b)%string)
  /\ ((forall j a, (j < i)%nat -> nth_error l j = Some a -> a_read a = 0%nat) -> b = data).
Proof. intros tries data l i b. apply loop_body. Qed.

(** An attempt after one whose body was read is sent without it, and the call succeeds. *)
Theorem C52_refuted : forall data n r, (n >= String.length data)%nat -> r = NoReply \/ r = Reply 503 (Some "") ->
  request 3 data [Att n r false; Att 0 (Reply 200 (Some "")) false] = ([data; ""], Some (Done 200 (Some ""))).
Proof.
  intros data n r Hn Hr. assert (X : sdrop n data = "").
  { clear Hr. revert n Hn. induction data as [|c data IH]; intros [|n] Hn; try reflexivity; cbn in *; [lia|]. apply IH. lia. }
  destruct Hr as [-> | ->]; cbn; now rewrite X.
Qed.

(** * C76: a boot error is not taken for a successful boot *)
(** Missing: a report that is repeated after its body was read, see below. *)
Theorem C76_error_partial : forall test msg l b s i c ok s' es m, r_stage (s_rcs s c) = Some m ->
  (forall a, In a l -> a_read a = 0%nat) -> In b (fst (report_boot (Some msg) l)) ->
  s_threads s i = Some (c, PostBootRead) -> run test s [AThread i (Some b) ok; AThread i None ok] = Some (s', es) ->
  (forall m' n, ~ In (EBooted m' n) es) /\ r_state (s_rcs s' c) = r_state (s_rcs s c)
  /\ In (EFailed m (r_name (s_rcs s c))) es.
Proof.
  intros test msg l b s i c ok s' es m Em Hl Hb Hi H. unfold report_boot in Hb. apply In_nth_error in Hb as [k Hk].
  destruct (C52_body_partial _ _ _ _ _ Hk) as [_ E]. rewrite E in H.
  2: { intros j a _ Ha. apply Hl. eapply nth_error_In, Ha. }
  cbn -[json_error upd] in H. rewrite Hi in H. unfold thread_step at 1 in H. cbv zeta in H.
  cbn -[upd] in H. rewrite upd_same in H. unfold thread_step in H. cbv zeta in H.
  cbn -[upd] in H. rewrite Em in H. injection H as <- <-. cbn. split; [intuition discriminate|]. auto.
Qed.
Example C76_error_ex : exists s tr s' m, reach false sequential s tr /\ r_stage (s_rcs s 0) = Some m
  /\ s_threads s 1 = Some (0%nat, PostBootRead)
  /\ In (json_error "no") (fst (report_boot (Some "no") [Att 0 NoReply false; Att 0 (Reply 200 (Some "")) false]))
  /\ run false s [AThread 1 (Some (json_error "no")) true; AThread 1 None true] = Some (s', [EFailed 0 "a"]).
Proof.
  set (l := one_stage ++ [get PBoot "a" ""; t 0; t 0; post PBoot "a" "s1"; t 1]).
  destruct (run false init l) as [[s tr]|] eqn:E; [|vm_compute in E; discriminate].
  assert (R : reach false sequential s tr) by (apply (reach_run _ l); [exact E|vm_compute; reflexivity]).
  vm_compute in E. injection E as <- <-. do 4 eexists. split; [exact R|]. split; [reflexivity|]. split; [reflexivity|].
  split; [now left|vm_compute; reflexivity].
Qed.

(** And a successful boot, however often it is reported, is taken for one. *)
Theorem C76_success : forall test l b s i c ok s' es m, r_stage (s_rcs s c) = Some m ->
  In b (fst (report_boot None l)) ->
  s_threads s i = Some (c, PostBootRead) -> run test s [AThread i (Some b) ok; AThread i None ok] = Some (s', es) ->
  (forall m' n, ~ In (EFailed m' n) es) /\ r_state (s_rcs s' c) = Runnable /\ In (EBooted m (r_name (s_rcs s c))) es.
Proof.
  intros test l b s i c ok s' es m Em Hb Hi H. unfold report_boot in Hb. apply In_nth_error in Hb as [k Hk].
  assert (E : b = "").
  { destruct (C52_body_partial _ _ _ _ _ Hk) as [[p E] _]. destruct p; [now destruct b|discriminate]. }
  subst b.
  cbn -[json_error upd] in H. rewrite Hi in H. unfold thread_step at 1 in H. cbv zeta in H.
  cbn -[upd] in H. rewrite upd_same in H. unfold thread_step in H. cbv zeta in H.
  cbn -[upd] in H. rewrite Em in H. injection H as <- <-. cbn. rewrite ?upd_same. split; [intuition discriminate|]. auto.
Qed.

(** A report that is never answered is sent three times with an error and ten times without. *)
Theorem C76_attempts : forall err l, (10 <= List.length l)%nat -> (forall a, In a l -> a_reply a = NoReply /\ a_ctx a = false) ->
  List.length (fst (report_boot err l)) = (match err with Some _ => 3 | None => 10 end)%nat /\ snd (report_boot err l) = Some Failed.
Proof.
  intros err l Hl Ha.
  assert (G : forall n t buf l, (n <= List.length l)%nat -> (forall a, In a l -> a_reply a = NoReply /\ a_ctx a = false) -> (0 <= t)%Z ->
    let r := request_loop (t + Z.of_nat n) t buf l in List.length (fst r) = n /\ snd r = Some Failed).
  { clear. induction n as [|n IH]; intros t buf l Hl Ha Ht; cbv zeta.
    - assert (E : (Z.eqb (t + Z.of_nat 0) (-1) || Z.ltb t (t + Z.of_nat 0))%bool = false) by lia.
      destruct l; cbn [request_loop]; rewrite E; auto.
    - destruct l as [|a l]; [cbn in Hl; lia|]. cbn [request_loop].
      replace (Z.eqb (t + Z.of_nat (S n)) (-1) || Z.ltb t (t + Z.of_nat (S n)))%bool with true by lia.
      destruct (Ha a (or_introl eq_refl)) as [-> ->].
      destruct (IH (t + 1)%Z (sdrop (a_read a) buf) l) as [E1 E2]; [cbn in Hl; lia|intros x Hx; apply Ha; now right|lia|].
      replace (t + 1 + Z.of_nat n)%Z with (t + Z.of_nat (S n))%Z in * by lia. cbn [fst snd List.length]. auto. }
  unfold report_boot, request. destruct err as [msg|]; [apply (G 3%nat 0%Z)|apply (G 10%nat 0%Z)]; auto; lia.
Qed.
Example C76_attempts_ex : let l := List.repeat (Att 3 NoReply false) 12 in
  fst (report_boot (Some "no") l) = [json_error "no"; sdrop 3 (json_error "no"); ""] /\ List.length (fst (report_boot None l)) = 10%nat.
Proof. vm_compute. auto. Qed.

(** The remote's report gets lost on the way back (or comes after the 500 ms it waits), it reports
    again without the message, and the server counts it as booted and runs the stage. *)
Theorem C76_refuted : exists l, let sent := fst (report_boot (Some "boot failed") l) in
  exists b1 b2, sent = [b1; b2] /\ b1 <> ""
  /\ exists s tr, run false init
       (one_stage ++ [get PBoot "a" ""; t 0; t 0; post PBoot "a" "s1"; t 1; AThread 1 (Some b1) true; t 1; t 1; srv;
                      post PBoot "a" "s1"; t 2; AThread 2 (Some b2) true; t 2; t 2; srv; srv; srv; srv]) = Some (s, tr)
     /\ reach false sequential s tr
     /\ In (EFailed 0 "a") tr /\ In (EBooted 0 "a") tr /\ In (ECount 0 (Some "a")) tr /\ g_run (s_metas s 0) = true.
Proof.
  exists [Att 100 NoReply false; Att 0 (Reply 200 (Some "")) false]. cbv zeta. do 2 eexists. split; [vm_compute; reflexivity|].
  split; [discriminate|].
  match goal with |- exists s tr, run false init ?l = _ /\ _ => destruct (run false init l) as [[s tr]|] eqn:E; [|vm_compute in E; discriminate];
    assert (R : reach false sequential s tr) by (apply (reach_run _ l); [exact E|vm_compute; reflexivity]) end.
  exists s, tr. split; [reflexivity|]. split; [exact R|]. vm_compute in E. injection E as <- <-. vm_compute. intuition.
Qed.

(** * C77: remotes run the server's trx files *)
Lemma overwrite_empty s : overwrite "" s = s.
Proof. induction s; cbn; congruence. Qed.
Lemma append_inj_l (a b c : string) : (a ++ b)%string = (a ++ c)%string -> b = c.
Proof. induction a; cbn; [auto|]. intros [= H]. auto. Qed.

Section Files.
Variables (fetch : nat -> option string) (tmp : string).
Definition tname (f : string) : string := (tmp ++ "/" ++ base f)%string.
Lemma tname_inj f g : tname f = tname g -> base f = base g.
Proof. unfold tname. intros H. apply append_inj_l in H. now injection H. Qed.

(** Files other than those named after the fetched ones are not touched. *)
Lemma get_files_other root trx : forall i fs names fs' x,
  get_files fetch root tmp i trx fs = Some (names, fs') -> (forall f, In f trx -> tname f <> x) -> sget x fs' = sget x fs.
Proof.
  induction trx as [|f rest IH]; cbn [get_files]; cbv zeta; intros i fs names fs' x H Hx.
  - now injection H as <- <-.
  - fold (tname f) in H. destruct (sget f fs).
    + destruct (get_files fetch root tmp (S i) rest fs) as [[l fs1]|] eqn:E; [|discriminate]. injection H as <- <-. eapply IH; [eassumption|]. intros g Hg. apply Hx. now right.
    + destruct (fetch i); [|discriminate]. destruct (sget (tname f) fs).
      * destruct root; [|discriminate]. destruct (get_files _ _ _ _ _ _) as [[l fs1]|] eqn:E; [|discriminate]. injection H as <- <-.
        rewrite (IH _ _ _ _ x E) by (intros g Hg; apply Hx; now right).
        rewrite sget_sset. destruct (String.eqb_spec x (tname f)) as [->|]; [exfalso; apply (Hx f); [now left|reflexivity]|reflexivity].
      * destruct (get_files _ _ _ _ _ _) as [[l fs1]|] eqn:E; [|discriminate]. injection H as <- <-.
        rewrite (IH _ _ _ _ x E) by (intros g Hg; apply Hx; now right).
        rewrite sget_sset. destruct (String.eqb_spec x (tname f)) as [->|]; [exfalso; apply (Hx f); [now left|reflexivity]|reflexivity].
Qed.

Lemma get_files_ok root trx : forall i fs,
  NoDup (map base trx) -> (forall f, In f trx -> sget (tname f) fs = None) ->
  (forall f g, In f trx -> In g trx -> f <> tname g) ->
  (forall k f, nth_error trx k = Some f -> fetch (i + k) <> None) ->
  exists names fs', get_files fetch root tmp i trx fs = Some (names, fs') /\ List.length names = List.length trx
    /\ forall k f, nth_error trx k = Some f -> exists name, nth_error names k = Some name
         /\ match sget f fs with
            | Some local => name = f /\ sget name fs' = Some local
            | None => sget name fs' = fetch (i + k)
            end.
Proof.
  induction trx as [|f rest IH]; intros i fs Hd Ht Hn Hf.
  - cbn. exists [], fs. repeat split. intros [|k] g; discriminate.
  - cbn [map] in Hd. inv Hd. cbn [get_files]. cbv zeta. fold (tname f).
    assert (Hf' : forall k g, nth_error rest k = Some g -> fetch (S i + k) <> None).
    { intros k g Hk. specialize (Hf (S k) g Hk). now replace (S i + k)%nat with (i + S k)%nat by lia. }
    assert (Hfr : forall g, In g rest -> tname g <> tname f).
    { intros g Hg E. apply tname_inj in E. apply H1. rewrite <- E. now apply in_map. }
    destruct (sget f fs) as [local|] eqn:Ef.
    + destruct (IH (S i) fs H2) as (names & fs' & E & Hlen & H); [intros; apply Ht; now right|intros; apply Hn; now right|exact Hf'|].
      rewrite E. exists (f :: names), fs'. split; [reflexivity|]. split; [cbn; now rewrite Hlen|]. intros [|k] g Hk.
      * injection Hk as <-. exists f. rewrite Ef. repeat split. rewrite (get_files_other _ _ _ _ _ _ _ E); [exact Ef|].
        intros g Hg E1. apply (Hn f g); [now left|now right|auto].
      * destruct (H k g Hk) as (name & H3 & H4). exists name. split; [exact H3|]. now replace (i + S k)%nat with (S i + k)%nat by lia.
    + destruct (fetch i) as [body|] eqn:Eb; [|exfalso; apply (Hf 0%nat f eq_refl); now rewrite Nat.add_0_r].
      rewrite (Ht f) by now left. rewrite overwrite_empty.
      destruct (IH (S i) (sset (tname f) body fs) H2) as (names & fs' & E & Hlen & H).
      { intros g Hg. rewrite sget_sset. destruct (String.eqb_spec (tname g) (tname f)) as [E|]; [now apply Hfr in E|]. apply Ht. now right. }
      { intros; apply Hn; now right. }
      { exact Hf'. }
      rewrite E. exists (tname f :: names), fs'. split; [reflexivity|]. split; [cbn; now rewrite Hlen|]. intros [|k] g Hk.
      * injection Hk as <-. exists (tname f). rewrite Ef, Nat.add_0_r, Eb. split; [reflexivity|].
        rewrite (get_files_other _ _ _ _ _ _ _ E), sget_sset, String.eqb_refl; [reflexivity|exact Hfr].
      * destruct (H k g Hk) as (name & H3 & H4). exists name. split; [exact H3|].
        rewrite sget_sset in H4. destruct (String.eqb_spec g (tname f)) as [E1|].
        -- exfalso. apply (Hn g f); [right; eapply nth_error_In, Hk|now left|exact E1].
        -- now replace (i + S k)%nat with (S i + k)%nat by lia.
Qed.
End Files.

(** Every trx file of the stage that the remote has not got is, under its new name, what the server
    answered for it, if all their base names differ.  Missing: equal base names, see below. *)
Theorem C77_files_partial : forall fetch root tmp trx fs, NoDup (map base trx) ->
  (forall f g, In f trx -> In g trx -> f <> (tmp ++ "/" ++ base g)%string) ->
  (forall f, In f trx -> sget (tmp ++ "/" ++ base f)%string fs = None) ->
  (forall k, (k < List.length trx)%nat -> fetch k <> None) ->
  exists names fs', get_files fetch root tmp 0 trx fs = Some (names, fs') /\ List.length names = List.length trx
    /\ forall k f, nth_error trx k = Some f -> exists name, nth_error names k = Some name
         /\ match sget f fs with
            | Some local => name = f /\ sget name fs' = Some local
            | None => sget name fs' = fetch k
            end.
Proof.
  intros fetch root tmp trx fs Hd Hn Ht Hf. apply (get_files_ok fetch tmp root trx 0 fs Hd); [exact Ht|exact Hn|].
  intros k f Hk. apply Hf. apply nth_error_Some; cbn in Hk |- *; rewrite Hk; discriminate.
Qed.
Example C77_files_ex : get_files (fun i => nth_error ["select 1"; "select 2"] i) false "/tmp/finch1" 0 ["trx/a.sql"; "/b.sql"] [("/b.sql", "local")]
  = Some (["/tmp/finch1/a.sql"; "/b.sql"], [("/b.sql", "local"); ("/tmp/finch1/a.sql", "select 1")]) /\ NoDup (map base ["trx/a.sql"; "/b.sql"]).
Proof. split; [reflexivity|]. cbn. repeat constructor; cbn; intuition discriminate. Qed.

(** Two trx with the same file name: either the remote does not boot (and tells nobody) or both trx
    are the second file, with the rest of the first behind it. *)
Theorem C77_refuted :
  get_files (fun i => nth_error ["select 1 from first;"; "select 2;"] i) false "/tmp/finch1" 0 ["x/a.sql"; "y/a.sql"] [] = None
  /\ get_files (fun i => nth_error ["select 1 from first;"; "select 2;"] i) true "/tmp/finch1" 0 ["x/a.sql"; "y/a.sql"] []
     = Some (["/tmp/finch1/a.sql"; "/tmp/finch1/a.sql"], [("/tmp/finch1/a.sql", "select 2;from first;")])
  /\ get_files (fun i => nth_error ["select 1;"; "select 1;"] i) false "/tmp/finch1" 0 ["a.sql"; "a.sql"] [] = None.
Proof. repeat split. Qed.

Print Assumptions C52_attempts.
Print Assumptions C52_success.
Print Assumptions C52_failure.
Print Assumptions C52_body_partial.
Print Assumptions C52_refuted.
Print Assumptions C76_error_partial.
Print Assumptions C76_attempts.
Print Assumptions C76_refuted.
Print Assumptions C77_files_partial.
Print Assumptions C77_refuted.
