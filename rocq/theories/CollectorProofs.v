(** Proofs about swapping and about the collector. *)
From Verif Require Import Prelude ListAux CollectorModel CollectorSpec.
From Coq Require Import Permutation.

(* ------------------------------------------------------------------------------------ *)
(** * Swapping *)
Section Swap.
Context {E : Type}.
Variable E_dec : forall x y : E, {x = y} + {x <> y}.

Definition sw_inv (s : swst E) : Prop :=
  concat (sw_reported s) ++ unread s = sw_recorded s /\ sw_sp s = sw_onA s /\
  match sw_coll s with
  | CIdle => forall p e, sw_client s = Some (p, e) -> p = sw_sp s
  | CReset => sw_buf s (negb (sw_onA s)) = [] /\ forall p e, sw_client s = Some (p, e) -> p = sw_sp s
  | CStored p' => sw_onA s = negb p' /\ forall p e, sw_client s = Some (p, e) -> p = p' -> sw_buf s (negb p') = []
  end.

Lemma sw_inv_step s x s' : sw_inv s -> no_overlap s x -> sw_step s x = Some s' -> sw_inv s'.
Proof.
  destruct s as [a b onA sp cl co rep rec]. unfold sw_inv, unread, sw_buf, no_overlap.
  cbn [sw_a sw_b sw_onA sw_sp sw_client sw_coll sw_reported sw_recorded].
  intros [H1 [-> H3]] Hq. destruct x as [e| | | |]; cbn [sw_step sw_a sw_b sw_onA sw_sp sw_client sw_coll sw_reported sw_recorded].
  - destruct cl; [discriminate|]. intros H. inv H. cbn. split; [reflexivity|]. split; [reflexivity|].
    destruct co as [| |p']; [intros p e' H; now inv H|destruct H3; split; [assumption|]; intros p e' H'; now inv H'|].
    destruct H3 as [H3 _]. split; [assumption|]. intros p e' H. inv H. destruct p'; discriminate.
  - destruct cl as [[p e]|]; [|discriminate]. intros H. inv H. cbn. destruct co as [| |p'].
    + specialize (H3 _ _ eq_refl). subst p. split; [|split; [reflexivity|intros ? ? H; discriminate]].
      destruct onA; cbn [app]; now rewrite ?app_assoc.
    + destruct H3 as [H3 H4]. specialize (H4 _ _ eq_refl). subst p. split; [|split; [reflexivity|]].
      * destruct onA; cbn [app]; now rewrite ?app_assoc.
      * split; [destruct onA; cbn in *; assumption|intros ? ? H; discriminate].
    + destruct H3 as [-> H4]. specialize (H4 _ _ eq_refl). split; [|split; [reflexivity|split; [reflexivity|intros ? ? H; discriminate]]].
      destruct p, p'; cbn in *; try (rewrite H4 by reflexivity); rewrite ?app_nil_r, <- ?app_assoc; reflexivity.
  - destruct co; try discriminate. intros H. inv H. cbn. split; [|split; [reflexivity|]].
    + destruct onA; reflexivity.
    + split; [destruct onA; reflexivity|assumption].
  - destruct co; try discriminate. intros H. inv H. cbn. destruct H3 as [H3 H4]. split; [|split; [reflexivity|]].
    + destruct onA; cbn in *; now rewrite H3, app_nil_r.
    + split; [reflexivity|]. intros p e He Hp. exact H3.
  - destruct co as [| |p']; try discriminate. intros H. inv H. cbn. destruct H3 as [-> H4].
    split; [|split; [reflexivity|]].
    + rewrite concat_app. cbn [concat]. rewrite app_nil_r, <- app_assoc. reflexivity.
    + intros p e ->. destruct p, p'; try reflexivity; exfalso; apply Hq; reflexivity.
Qed.

Lemma sw_run_exact l : forall s s', sw_inv s -> quiet s l -> sw_run s l = Some s' -> sw_inv s'.
Proof.
  induction l as [|x l IH]; intros s s' Hi Hq H; cbn [sw_run quiet] in *; [now inv H|].
  destruct Hq as [Hx Hq]. destruct (sw_step s x) as [s1|] eqn:E1; [|discriminate].
  eapply IH; [|exact Hq|exact H]. eapply sw_inv_step; eauto.
Qed.
Lemma sw_init_inv : sw_inv sw_init.
Proof. unfold sw_inv. cbn. split; [reflexivity|]. split; [reflexivity|]. intros p e H. discriminate. Qed.

Notation cnt l e := (count_occ E_dec l e).
Definition live (s : swst E) : list E :=
  match sw_coll s with CIdle => sw_buf s (sw_sp s) | _ => sw_a s ++ sw_b s end.
Definition sw_once (s : swst E) : Prop :=
  sw_sp s = sw_onA s /\ (match sw_coll s with CStored p => sw_onA s = negb p | _ => True end) /\
  forall e, cnt (concat (sw_reported s)) e + cnt (live s) e <= cnt (sw_recorded s) e.

Lemma sw_once_step s x s' : sw_once s -> sw_step s x = Some s' -> sw_once s'.
Proof.
  destruct s as [a b onA sp cl co rep rec]. unfold sw_once, live, sw_buf.
  cbn [sw_a sw_b sw_onA sw_sp sw_client sw_coll sw_reported sw_recorded].
  intros [Hsp [H2 H3]]. subst sp. destruct x as [e| | | |]; cbn [sw_step sw_a sw_b sw_onA sw_sp sw_client sw_coll sw_reported sw_recorded].
  - destruct cl; [discriminate|]. intros H. inv H. cbn. auto.
  - destruct cl as [[p e]|]; [|discriminate]. intros H. inv H.
    cbn [sw_a sw_b sw_onA sw_sp sw_client sw_coll sw_reported sw_recorded]. split; [reflexivity|]. split; [assumption|].
    intros e'. specialize (H3 e'). rewrite count_occ_app. destruct co, p, onA; rewrite ?count_occ_app in *; lia.
  - destruct co; try discriminate. intros H. inv H.
    cbn [sw_a sw_b sw_onA sw_sp sw_client sw_coll sw_reported sw_recorded]. split; [reflexivity|]. split; [exact I|].
    intros e'. specialize (H3 e'). destruct onA; rewrite count_occ_app; cbn [count_occ]; lia.
  - destruct co; try discriminate. intros H. inv H.
    cbn [sw_a sw_b sw_onA sw_sp sw_client sw_coll sw_reported sw_recorded]. auto.
  - destruct co as [| |p']; try discriminate. intros H. inv H.
    cbn [sw_a sw_b sw_onA sw_sp sw_client sw_coll sw_reported sw_recorded]. split; [reflexivity|]. split; [exact I|].
    intros e'. specialize (H3 e'). rewrite concat_app, count_occ_app. cbn [concat]. rewrite app_nil_r.
    unfold sw_buf. cbn [sw_a sw_b]. rewrite count_occ_app in H3. destruct p'; cbn [negb]; lia.
Qed.
Lemma sw_run_once l : forall s s', sw_once s -> sw_run s l = Some s' -> sw_once s'.
Proof.
  induction l as [|x l IH]; intros s s' Hi H; cbn [sw_run] in *; [now inv H|].
  destruct (sw_step s x) as [s1|] eqn:E1; [|discriminate]. eapply IH; [|exact H]. eapply sw_once_step; eauto.
Qed.
Lemma sw_init_once : sw_once sw_init.
Proof. split; [reflexivity|]. split; [exact I|]. intros e. cbn. lia. Qed.
End Swap.

(* ------------------------------------------------------------------------------------ *)
(** * Collector *)
Section Coll.
Context {D : Type}.
Implicit Types (c : coll D) (d : D).

Definition reps_ok (reps : list reporter) (n : nat) : Prop := forall r, In r reps -> reporter_ok r n = true.
Lemma reps_forallb reps n : reps_ok reps n <-> forallb (fun r => reporter_ok r n) reps = true.
Proof. rewrite forallb_forall. reflexivity. Qed.

(** Pushing one entry into an interval of [n]: full or not. *)
Lemma push_report n reps no buf li ld (e : centry D) :
  length buf < n -> reps_ok reps n ->
  match c_push (Coll n reps no buf li ld) e with
  | None => False
  | Some c1 =>
    c_report c1 false =
      if S (length buf) =? n
      then Some (Coll n reps (no + 1) [] li ld, [map (resolve ld) (buf ++ [e])], true)
      else Some (Coll n reps no (buf ++ [e]) li ld, [], false)
  end.
Proof.
  intros Hl Hr. unfold c_push. cbn [c_buf c_ninst c_reps c_no c_lival c_ldata].
  replace (length buf <? n)%nat with true by lia. unfold c_report. cbn [c_buf c_ninst c_reps c_no c_lival c_ldata negb andb].
  rewrite app_length. cbn [length]. destruct (Nat.eqb_spec (S (length buf)) n) as [E|E].
  - replace (length buf + 1 <? n)%nat with false by lia. replace (length buf + 1) with n by lia.
    apply reps_forallb in Hr. rewrite Hr. reflexivity.
  - replace (length buf + 1 <? n)%nat with true by lia. reflexivity.
Qed.

(** A round, from any place in it: [done] delivered already. *)
Definition ent (k : N) (o : cop D) : centry D :=
  match o with OCollect d => CEntry 0 k None | ORecv h i d => CEntry h i (Some d) end.
Definition okop (k : N) (o : cop D) : Prop := match o with OCollect _ => True | ORecv _ i _ => i = k end.
Definition is_coll (o : cop D) : bool := match o with OCollect _ => true | _ => false end.
Definition del1 (k : N) (o : cop D) : nat * N * D := match o with OCollect d => (0, k, d) | ORecv h i d => (h, i, d) end.

Lemma round_run n reps k : forall todo donel li ld,
  reps_ok reps n -> n = length donel + length todo -> todo <> [] ->
  Forall (okop k) todo ->
  length (filter is_coll (donel ++ todo)) <= 1 ->
  (forall d, In (OCollect d) donel -> ld = d) ->
  (filter is_coll todo <> [] -> (li + 1)%N = k) ->
  exists ld', c_run (Coll n reps k (map (ent k) donel) li ld) todo =
    Some (Coll n reps (k + 1) [] (if existsb is_coll todo then k else li) ld', [map (del1 k) (donel ++ todo)]).
Proof.
  induction todo as [|o todo IH]; intros donel li ld Hr Hn Hne Hok H1 Hd Hli; [congruence|]. clear Hne.
  inversion Hok as [|o0 t0 Ho Hok']; subst. cbn [length] in *.
  pose (li1 := if is_coll o then k else li).
  pose (ld1 := match o with OCollect d => d | _ => ld end).
  assert (Hld1 : forall d, In (OCollect d) (donel ++ [o]) -> ld1 = d).
  { intros d Hin. apply in_app_or in Hin. unfold ld1. destruct o as [d'|h i d'].
    - destruct Hin as [Hin|[Hin|[]]]; [|congruence]. exfalso.
      assert (Hf : In (OCollect d) (filter is_coll donel)) by (apply filter_In; auto).
      rewrite filter_app, app_length in H1. cbn [filter is_coll length] in H1. destruct (filter is_coll donel); [destruct Hf|cbn [length] in H1; lia].
    - destruct Hin as [Hin|[Hin|[]]]; [now apply Hd|discriminate]. }
  assert (Hstep : c_step (Coll (length donel + S (length todo)) reps k (map (ent k) donel) li ld) o =
    if S (length donel) =? length donel + S (length todo)
    then Some (Coll (length donel + S (length todo)) reps (k + 1) [] li1 ld1, [map (del1 k) (donel ++ [o])])
    else Some (Coll (length donel + S (length todo)) reps k (map (ent k) (donel ++ [o])) li1 ld1, [])).
  { assert (Hmap : forall buf0, buf0 = map (ent k) (donel ++ [o]) -> map (resolve ld1) buf0 = map (del1 k) (donel ++ [o])).
    { intros buf0 ->. rewrite map_map. apply map_ext_in. intros x Hx. destruct x as [d|h i d]; [|reflexivity].
      cbn [ent del1 resolve en_host en_ival en_data]. now rewrite (Hld1 d Hx). }
    destruct o as [d|h i d]; cbn [c_step].
    - unfold c_collect. cbn [c_buf c_ninst c_reps c_no c_lival c_ldata].
      assert (Hk : (li + 1)%N = k) by (apply Hli; cbn; congruence).
      pose proof (push_report (length donel + S (length todo)) reps k (map (ent k) donel) (li + 1) d (CEntry 0 (li + 1) None)) as Hp.
      rewrite map_length in Hp. specialize (Hp ltac:(lia) Hr).
      destruct (c_push _ _) as [c1|]; [|destruct Hp]. rewrite Hp. rewrite Hk.
      destruct (S (length donel) =? length donel + S (length todo)); do 3 f_equal.
      + f_equal. apply Hmap. rewrite map_app. reflexivity.
      + rewrite map_app. reflexivity.
    - cbn [okop] in Ho. subst i. unfold c_recv. cbn [c_no]. rewrite N.ltb_irrefl.
      pose proof (push_report (length donel + S (length todo)) reps k (map (ent k) donel) li ld (CEntry h k (Some d))) as Hp.
      rewrite map_length in Hp. specialize (Hp ltac:(lia) Hr).
      destruct (c_push _ _) as [c1|]; [|destruct Hp]. rewrite Hp.
      destruct (S (length donel) =? length donel + S (length todo)); do 2 f_equal.
      + f_equal. apply Hmap. rewrite map_app. reflexivity.
      + f_equal. rewrite map_app. reflexivity. }
  cbn [c_run]. rewrite Hstep. destruct todo as [|o2 todo'].
  - replace (S (length donel) =? length donel + S (length (@nil (cop D)))) with true by (cbn [length]; symmetry; apply Nat.eqb_eq; lia).
    exists ld1. cbn [c_run existsb]. rewrite app_nil_r, orb_false_r. reflexivity.
  - replace (S (length donel) =? length donel + S (length (o2 :: todo'))) with false by (cbn [length]; symmetry; apply Nat.eqb_neq; lia).
    destruct (IH (donel ++ [o]) li1 ld1) as [ld' E]; auto.
    + rewrite app_length. cbn [length]. lia.
    + congruence.
    + rewrite <- app_assoc. exact H1.
    + intros Hf. unfold li1. destruct o as [d|h i d]; [|apply Hli; exact Hf]. exfalso.
      rewrite filter_app, app_length in H1. cbn [filter is_coll length] in H1.
      cbn [filter] in Hf. destruct (is_coll o2) in *; cbn [length] in *; [lia|]. destruct (filter is_coll todo'); [congruence|cbn [length] in H1; lia].
    + exists ld'. cbn [length] in *. rewrite E. rewrite <- app_assoc. cbn [app].
      do 3 f_equal. unfold li1. cbn [existsb]. destruct (is_coll o) eqn:Eo; cbn [orb]; [|reflexivity].
      destruct (is_coll o2 || existsb is_coll todo')%bool; reflexivity.
Qed.

Lemma round_of_facts n k (round : list (cop D)) : round_of n k round ->
  n = length round /\ round <> [] /\ Forall (okop k) round /\ length (filter is_coll round) = 1 /\ existsb is_coll round = true.
Proof.
  intros [d [ds [Hl [Hn HP]]]].
  assert (Hlen : length (map (fun hd : nat * D => ORecv (fst hd) k (snd hd)) (List.combine (seq 1 (n - 1)) ds)) = n - 1).
  { rewrite map_length, combine_length, seq_length. lia. }
  pose proof (Permutation_length HP) as HL. cbn [length] in HL. rewrite Hlen in HL.
  split; [lia|]. split; [intros ->; cbn in HL; lia|]. split; [|split].
  - rewrite Forall_forall. intros o Ho. eapply Permutation_in in Ho; [|exact HP]. destruct Ho as [<-|Ho]; [exact I|].
    apply in_map_iff in Ho. destruct Ho as [x [<- _]]. reflexivity.
  - assert (HF : Permutation (filter is_coll round) (filter is_coll (OCollect d :: map (fun hd : nat * D => ORecv (fst hd) k (snd hd)) (List.combine (seq 1 (n - 1)) ds)))).
    { clear -HP. induction HP; cbn [filter]; repeat dmg; auto; try constructor; auto. eapply perm_trans; eauto. }
    rewrite (Permutation_length HF). cbn [filter is_coll length].
    replace (filter is_coll _) with (@nil (cop D)); [reflexivity|]. clear.
    generalize (List.combine (seq 1 (n - 1)) ds). induction l as [|x l IH]; [reflexivity|]. cbn [map filter is_coll]. exact IH.
  - apply existsb_exists. exists (OCollect d). split; [|reflexivity]. eapply Permutation_in; [symmetry; exact HP|now left].
Qed.

Lemma c_run_app l1 : forall c l2, c_run c (l1 ++ l2) =
  match c_run c l1 with
  | Some (c1, o1) => match c_run c1 l2 with Some (c2, o2) => Some (c2, o1 ++ o2) | None => None end
  | None => None
  end.
Proof.
  induction l1 as [|x l1 IH]; intros c l2; cbn [app c_run].
  - destruct (c_run c l2) as [[c2 o2]|]; reflexivity.
  - destruct (c_step c x) as [[c1 o1]|]; [|reflexivity]. rewrite IH.
    destruct (c_run c1 l1) as [[c2 o2]|]; [|reflexivity]. destruct (c_run c2 l2) as [[c3 o3]|]; [|reflexivity].
    now rewrite app_assoc.
Qed.

Lemma rounds_run n reps : forall rounds k li ld, reps_ok reps n -> (li + 1)%N = k -> rounds_from n k rounds ->
  exists c', c_run (Coll n reps k [] li ld) (concat rounds) = Some (c', all_delivered k rounds) /\ c_buf c' = [].
Proof.
  induction rounds as [|r rs IH]; intros k li ld Hr Hk HR; cbn [rounds_from concat all_delivered] in *.
  - eexists. split; reflexivity.
  - destruct HR as [Hr1 HR]. destruct (round_of_facts _ _ _ Hr1) as [Hn [Hne [Hok [Hf He]]]].
    rewrite c_run_app. destruct (round_run n reps k r [] li ld) as [ld' E]; auto.
    + cbn [app]. lia.
    + intros d [].
    + cbn [map app] in E. rewrite E, He.
      destruct (IH (k + 1)%N k ld' Hr eq_refl HR) as [c' [E' B']]. rewrite E'. exists c'. split; [|assumption]. reflexivity.
Qed.

(** Nothing is ever in an interval beyond its capacity, and every report is counted. *)
Definition fits c : Prop := length (c_buf c) <= c_ninst c.

Lemma report_counts c force c' out b : c_report c force = Some (c', out, b) ->
  c_ninst c' = c_ninst c /\ c_reps c' = c_reps c /\ (c_no c' = c_no c + N.of_nat (length out))%N /\
  (fits c -> fits c') /\
  (forall r, In r out -> r = map (resolve (c_ldata c)) (c_buf c)) /\ (b = false -> out = [] /\ c' = c) /\ c_lival c' = c_lival c.
Proof.
  unfold c_report. repeat dmg; intros H; try discriminate; inv H; cbn [c_ninst c_no c_buf c_reps c_lival length].
  - split; [reflexivity|]. split; [reflexivity|]. split; [lia|]. split; [auto|]. split; [intros r []|]. split; [auto|reflexivity].
  - split; [reflexivity|]. split; [reflexivity|]. split; [lia|]. split; [intros _; unfold fits; cbn; lia|].
    split; [intros r [<-|[]]; reflexivity|]. split; [discriminate|reflexivity].
Qed.

Lemma past_discarded c h ival d : (ival < c_no c)%N -> c_recv c h ival d = Some (c, []).
Proof. intros H. unfold c_recv. replace (ival <? c_no c)%N with true by lia. reflexivity. Qed.

(* ------------------------------------------------------------------------------------ *)
(** * Stopping *)

Definition rent (x : nat * N * D) : centry D := CEntry (fst (fst x)) (snd (fst x)) (Some (snd x)).
Lemma resolve_rent ld l : map (resolve ld) (map rent l) = l.
Proof. rewrite map_map. rewrite <- map_id. apply map_ext. intros [[h i] d]. reflexivity. Qed.

(** The wait with fewer arrivals than missing: nothing is reported. *)
Lemma wait_incomplete n reps no : forall l buf li ld, reps_ok reps n ->
  no_timeout l -> Forall (fun x => snd (fst x) = no) (arrivals l) -> length buf + length (arrivals l) < n -> forall rest,
  c_wait (Coll n reps no buf li ld) (l ++ rest) = c_wait (Coll n reps no (buf ++ map rent (arrivals l)) li ld) rest.
Proof.
  induction l as [|w l IH]; intros buf li ld Hr Ht Hi Hn rest.
  - cbn. now rewrite app_nil_r.
  - assert (Ht' : no_timeout l) by (intros H; apply Ht; now right). cbn [arrivals flat_map] in Hi, Hn.
    change (flat_map (fun w : wev D => match w with WRecv h i d => [(h, i, d)] | _ => [] end) l) with (arrivals l) in *.
    destruct w as [h i d| |]; [| |exfalso; apply Ht; now left]; cbn [app c_wait].
    + cbn [app] in Hi, Hn. inv Hi. cbn [fst snd length] in *. unfold c_recv. cbn [c_no]. rewrite N.ltb_irrefl.
      pose proof (push_report n reps i buf li ld (CEntry h i (Some d)) ltac:(lia) Hr) as Hp.
      destruct (c_push _ _) as [c1|]; [|destruct Hp]. rewrite Hp.
      replace (S (length buf) =? n) with false by (symmetry; apply Nat.eqb_neq; lia).
      rewrite IH; auto; [|rewrite app_length; cbn [length]; lia].
      rewrite <- app_assoc. cbn [app map rent fst snd]. 
      change (flat_map (fun w : wev D => match w with WRecv h i d => [(h, i, d)] | _ => [] end) l) with (arrivals l).
      destruct (c_wait _ rest) as [[[c2 o2] b2]|]; reflexivity.
    + unfold c_report at 1. cbn [c_buf c_ninst negb andb]. cbn [app] in *. replace (length buf <? n)%nat with true by lia.
      rewrite IH; auto.
      change (flat_map (fun w : wev D => match w with WRecv h i d => [(h, i, d)] | _ => [] end) l) with (arrivals l).
      destruct (c_wait _ rest) as [[[c2 o2] b2]|]; reflexivity.
Qed.

(** A wake-up never completes the interval: it was already reported when the last statistics came. *)
Lemma poll_never c : length (c_buf c) < c_ninst c -> c_report c false = Some (c, [], false).
Proof. intros H. unfold c_report. cbn [negb andb]. replace (length (c_buf c) <? c_ninst c)%nat with true by lia. reflexivity. Qed.

Lemma wait_polls c : length (c_buf c) < c_ninst c -> forall l rest, Forall (fun w => w = WPoll) l -> c_wait c (l ++ rest) = c_wait c rest.
Proof.
  intros Hc l rest H. induction H as [|w l -> H IH]; [reflexivity|]. cbn [app c_wait]. rewrite poll_never by assumption. rewrite IH.
  destruct (c_wait c rest) as [[[c2 o2] b2]|]; reflexivity.
Qed.
End Coll.

Section Stop.
Context {D : Type}.
Implicit Types (d : D).

Lemma stop_complete n reps no (before : list (nat * N * D)) li ld periodic recent d l :
  (periodic && recent)%bool = false -> reps_ok reps n -> S (length before) = n ->
  c_stop (Coll n reps no (map rent before) li ld) periodic recent d l =
  Some (Coll n reps (no + 1) [] (li + 1) d, [before ++ [(0, (li + 1)%N, d)]], true).
Proof.
  intros Hp Hr Hn. unfold c_stop. rewrite Hp. unfold c_collect. cbn [c_buf c_ninst c_reps c_no c_lival c_ldata].
  pose proof (push_report n reps no (map rent before) (li + 1)%N d (CEntry 0 (li + 1)%N None)) as H.
  rewrite map_length in H. specialize (H ltac:(lia) Hr). destruct (c_push _ _) as [c1|]; [|destruct H]. rewrite H.
  replace (S (length before) =? n) with true by (symmetry; apply Nat.eqb_eq; lia).
  rewrite map_app, resolve_rent. reflexivity.
Qed.

Lemma stop_wait n reps no (before : list (nat * N * D)) li ld periodic recent d l :
  (periodic && recent)%bool = false -> reps_ok reps n -> S (length before) < n ->
  c_stop (Coll n reps no (map rent before) li ld) periodic recent d l =
  c_wait (Coll n reps no (map rent before ++ [CEntry 0 (li + 1)%N None]) (li + 1) d) l.
Proof.
  intros Hp Hr Hn. unfold c_stop. rewrite Hp. unfold c_collect. cbn [c_buf c_ninst c_reps c_no c_lival c_ldata].
  pose proof (push_report n reps no (map rent before) (li + 1)%N d (CEntry 0 (li + 1)%N None)) as H.
  rewrite map_length in H. specialize (H ltac:(lia) Hr). destruct (c_push _ _) as [c1|]; [|destruct H]. rewrite H.
  replace (S (length before) =? n) with false by (symmetry; apply Nat.eqb_neq; lia).
  destruct (c_wait _ l) as [[[c2 o2] b2]|]; reflexivity.
Qed.

Lemma stop_timeout n reps no (before : list (nat * N * D)) li ld periodic recent d l rest :
  (periodic && recent)%bool = false -> reps_ok reps n -> reps_ok reps (length before + 1 + length (arrivals l)) ->
  no_timeout l -> Forall (fun x => snd (fst x) = no) (arrivals l) ->
  length before + 1 + length (arrivals l) < n ->
  c_stop (Coll n reps no (map rent before) li ld) periodic recent d (l ++ WTimeout :: rest) =
  Some (Coll n reps (no + 1) [] (li + 1) d, [before ++ (0, (li + 1)%N, d) :: arrivals l], true).
Proof.
  intros Hp Hr Hr' Ht Hi Hn. rewrite stop_wait by (auto; lia).
  rewrite wait_incomplete by (auto; rewrite app_length, map_length; cbn [length]; lia).
  cbn [c_wait]. unfold c_report. cbn [negb andb c_buf c_reps c_ninst c_no c_lival c_ldata].
  rewrite !app_length, !map_length. cbn [length]. apply reps_forallb in Hr'. rewrite Hr'.
  rewrite !map_app, !resolve_rent, <- app_assoc. reflexivity.
Qed.

Lemma stop_during n reps no (before : list (nat * N * D)) li ld periodic recent d l h x polls rest :
  (periodic && recent)%bool = false -> reps_ok reps n ->
  no_timeout l -> Forall (fun x => snd (fst x) = no) (arrivals l) ->
  length before + 2 + length (arrivals l) = n -> Forall (fun w => w = WPoll) polls ->
  c_stop (Coll n reps no (map rent before) li ld) periodic recent d (l ++ WRecv h no x :: polls ++ WTimeout :: rest) =
  (if forallb (fun r => reporter_ok r 0) reps
   then Some (Coll n reps (no + 1 + 1) [] (li + 1) d, [before ++ (0, (li + 1)%N, d) :: arrivals l ++ [(h, no, x)]; []], true)
   else None).
Proof.
  intros Hp Hr Ht Hi Hn Hpo. rewrite stop_wait by (auto; lia).
  rewrite wait_incomplete by (auto; rewrite app_length, map_length; cbn [length]; lia).
  cbn [c_wait]. unfold c_recv. cbn [c_no]. rewrite N.ltb_irrefl.
  set (buf := (map rent before ++ [CEntry 0 (li + 1)%N None]) ++ map rent (arrivals l)).
  assert (Hb : S (length buf) = n) by (unfold buf; rewrite !app_length, !map_length; cbn [length]; lia).
  pose proof (push_report n reps no buf (li + 1)%N d (CEntry h no (Some x)) ltac:(lia) Hr) as H.
  destruct (c_push _ _) as [c1|]; [|destruct H]. rewrite H.
  replace (S (length buf) =? n) with true by (symmetry; apply Nat.eqb_eq; lia).
  rewrite wait_polls by (cbn [c_buf c_ninst length]; auto; lia). cbn [c_wait].
  unfold c_report. cbn [negb andb c_buf c_reps c_ninst c_no c_lival c_ldata length map].
  destruct (forallb _ reps); [|reflexivity]. cbn [app]. do 4 f_equal.
  unfold buf. rewrite !map_app, !resolve_rent, <- !app_assoc. reflexivity.
Qed.

Lemma remote_lockstep : forall (ds : list D) r, rm_queue r = [] ->
  snd (rm_run r (concat (map (fun d => [RTick d; RSend]) ds))) = number (rm_ival r + 1) ds.
Proof.
  induction ds as [|d ds IH]; intros r Hq; [reflexivity|]. cbn [map concat app rm_run rm_step]. rewrite Hq. cbn [length app rm_queue rm_ival rm_data].
  change (0 <? 5)%nat with true. cbn iota. cbn [rm_queue].
  destruct (rm_run _ (concat _)) as [r2 o2] eqn:E. cbn [snd app number].
  specialize (IH (Remote (rm_ival r + 1)%N d []) eq_refl). rewrite E in IH. cbn [snd rm_ival] in IH. now rewrite IH.
Qed.
End Stop.
