(** Which limiters and counters the clients share. *)
From Verif Require Import Prelude ListAux ScopeModel StmtModel WorkloadModel WorkloadSpec.

Definition ownmap := nat -> option owner.
Definition ext (n : nat) (O O' : ownmap) := forall i, (i < n)%nat -> O' i = O i.
Lemma ext_refl n O : ext n O O. Proof. intros i; auto. Qed.
Lemma ext_trans n m O O' O'' : ext n O O' -> ext m O' O'' -> (n <= m)%nat -> ext n O O''.
Proof. intros A B L i H. rewrite B, A; auto. lia. Qed.
Lemma ext_le n m O O' : ext m O O' -> (n <= m)%nat -> ext n O O'.
Proof. intros A L i H. apply A. lia. Qed.

(** [l] is the limiter owned by [o]: none for rate 0 *)
Definition own (O : ownmap) (bound : nat) (o : owner) (n : N) (l : list (nat * N)) : Prop :=
  (n = 0%N /\ l = []) \/ (n <> 0%N /\ exists id, l = [(id, n)] /\ O id = Some o /\ (id < bound)%nat).

Lemma own_ext O O' b b' o n l : ext b O O' -> (b <= b')%nat -> own O b o n l -> own O' b' o n l.
Proof.
  intros E L [H|(N1 & id & -> & A & B)]; [left; auto|right; split; auto].
  exists id. repeat split; auto; [rewrite E; auto|lia].
Qed.

Lemma and_new_own w a n w' r o O :
  and_new w a n = (w', r) ->
  exists O' l, ext (w_next w) O O' /\ (w_next w <= w_next w')%nat /\ leaves_of r = leaves_of a ++ l /\
    own O' (w_next w') o n l.
Proof.
  unfold and_new, new_rate, rate_and. intros H.
  destruct (N.eqb_spec n 0) as [->|NZ].
  - exists O, []. rewrite app_nil_r. destruct a; inv H; repeat split; auto using ext_refl; left; auto.
  - exists (natupd O (w_next w) (Some o)), [(w_next w, n)].
    split; [|split; [|split]].
    + intros i L. apply natupd_other. lia.
    + destruct a; inv H; cbn; lia.
    + destruct a; inv H; reflexivity.
    + right. split; auto. exists (w_next w). split; auto. split; [apply natupd_same|destruct a; inv H; cbn; lia].
Qed.

Lemma fresh_own w O o : exists O', ext w O O' /\ O' w = Some o.
Proof. exists (natupd O w (Some o)). split; [intros i L; apply natupd_other; lia|apply natupd_same]. Qed.

(** a client of the group with configuration [cg], counters [cp], [ep] and limiters [cq], [ct] *)
Definition client_wired (O : ownmap) (b : nat) (e g k : nat) (cg : cgcfg) (cp ep : nat) (cq ct : option rate) (c : client) : Prop :=
  (exists l, leaves_of (c_qps c) = leaves_of cq ++ l /\ own O b (OClient true e g k) (cg_qps cg) l) /\
  (exists l, leaves_of (c_tps c) = leaves_of ct ++ l /\ own O b (OClient false e g k) (cg_tps cg) l) /\
  c_iterClients c = u32 (cg_iterClients cg) /\
  c_iterClientsPtr c = (if (cg_iterClients cg =? 0)%N then None else Some cp) /\
  c_iterEg c = u32 (cg_iterExecGroup cg) /\
  c_iterEgPtr c = (if (cg_iterExecGroup cg =? 0)%N then None else Some ep).

Lemma client_wired_ext O O' b b' e g k cg cp ep cq ct c :
  ext b O O' -> (b <= b')%nat -> client_wired O b e g k cg cp ep cq ct c -> client_wired O' b' e g k cg cp ep cq ct c.
Proof.
  intros E L ((l1 & A1 & A2) & (l2 & B1 & B2) & R). split; [|split; auto].
  - exists l1. split; auto. eapply own_ext; eauto.
  - exists l2. split; auto. eapply own_ext; eauto.
Qed.

Lemma walk_clients_wired ts ws cg cp ep cq ct e g : forall todo k w rl w' rl' cs O,
  walk_clients ts ws cg cp ep cq ct w rl (N.of_nat k) todo = Some (w', rl', cs) ->
  exists O', ext (w_next w) O O' /\ (w_next w <= w_next w')%nat /\
  forall j c, nth_error cs j = Some c -> client_wired O' (w_next w') e g (k + j) cg cp ep cq ct c.
Proof.
  induction todo as [|todo IH]; intros k w rl w' rl' cs O H; cbn [walk_clients] in H.
  - inv H. exists O. split; [apply ext_refl|]. split; [auto|]. intros [|j]; discriminate.
  - destruct (and_new w cq (cg_qps cg)) as [w1 q] eqn:HQ.
    destruct (and_new w1 ct (cg_tps cg)) as [w2 t] eqn:HT.
    destruct (and_new_own _ _ _ _ _ (OClient true e g k) O HQ) as (O1 & l1 & E1 & L1 & A1 & W1).
    destruct (and_new_own _ _ _ _ _ (OClient false e g k) O1 HT) as (O2 & l2 & E2 & L2 & A2 & W2).
    destruct (walk_trx _ _ _ _ _ _ _ _) as [[[[[sc3 rl3] cst] data] st]|]; [|discriminate].
    replace (N.of_nat k + 1)%N with (N.of_nat (S k)) in H by lia.
    destruct (walk_clients _ _ _ _ _ _ _ _ _ _ todo) as [[[w4 rl4] cs']|] eqn:HW; [|discriminate]. inv H.
    destruct (IH _ _ _ _ _ _ O2 HW) as (O' & E' & L' & C'). cbn [w_next] in *.
    exists O'. split; [|split; [lia|]].
    + eapply ext_trans; [eapply ext_trans; [exact E1|exact E2|lia]|exact E'|lia].
    + intros [|j] c Hc; cbn in Hc.
      * inv Hc. rewrite Nat.add_0_r. unfold client_wired. cbn.
        split; [exists l1; split; auto; eapply own_ext; [exact E'|exact L'|eapply own_ext; [exact E2|exact L2|exact W1]]|].
        split; [exists l2; split; auto; eapply own_ext; [exact E'|exact L'|exact W2]|].
        destruct (N.eqb_spec (cg_iterClients cg) 0) as [->|Z1], (N.eqb_spec (cg_iterExecGroup cg) 0) as [->|Z2];
          repeat match goal with |- context [(0 <? ?x)%N] => destruct (N.ltb_spec 0 x); try lia end; auto.
      * replace (k + S j)%nat with (S k + j)%nat by lia. auto.
Qed.

(** the client groups of one exec group *)
Definition cg_wired (O : ownmap) (b e g : nat) (cg : cgcfg) (ep : nat) (eq et : option rate) (cs : list client) : Prop :=
  exists cp cq ct,
    (exists l, leaves_of cq = leaves_of eq ++ l /\ own O b (OClients true e g) (cg_qpsClients cg) l) /\
    (exists l, leaves_of ct = leaves_of et ++ l /\ own O b (OClients false e g) (cg_tpsClients cg) l) /\
    O cp = Some (OIterClients e g) /\ (cp < b)%nat /\
    forall k c, nth_error cs k = Some c -> client_wired O b e g k cg cp ep cq ct c.

Lemma cg_wired_ext O O' b b' e g cg ep eq et cs :
  ext b O O' -> (b <= b')%nat -> cg_wired O b e g cg ep eq et cs -> cg_wired O' b' e g cg ep eq et cs.
Proof.
  intros E L (cp & cq & ct & (l1 & A1 & A2) & (l2 & B1 & B2) & C1 & C2 & D). exists cp, cq, ct.
  split; [exists l1; split; auto; eapply own_ext; eauto|].
  split; [exists l2; split; auto; eapply own_ext; eauto|].
  split; [rewrite E; auto|]. split; [lia|]. intros. eapply client_wired_ext; eauto.
Qed.

Lemma walk_cgs_wired ts ws wl ep eq et e : forall refs g w rl w' rl' css O,
  walk_cgs ts ws wl ep eq et w rl g refs = Some (w', rl', css) ->
  exists O', ext (w_next w) O O' /\ (w_next w <= w_next w')%nat /\
  forall j cs, nth_error css j = Some cs -> exists r cg, nth_error refs j = Some r /\ nth_error wl r = Some cg /\
    cg_wired O' (w_next w') e (g + j) cg ep eq et cs.
Proof.
  induction refs as [|r refs IH]; intros g w rl w' rl' css O H; cbn [walk_cgs] in H.
  - inv H. exists O. split; [apply ext_refl|]. split; [auto|]. intros [|j]; discriminate.
  - destruct (nth_error wl r) as [cg|] eqn:HR; [|discriminate].
    destruct (and_new w eq (cg_qpsClients cg)) as [w1 q] eqn:HQ.
    destruct (and_new w1 et (cg_tpsClients cg)) as [w2 t] eqn:HT.
    destruct (and_new_own _ _ _ _ _ (OClients true e g) O HQ) as (O1 & l1 & E1 & L1 & A1 & W1).
    destruct (and_new_own _ _ _ _ _ (OClients false e g) O1 HT) as (O2 & l2 & E2 & L2 & A2 & W2).
    destruct (fresh_own (w_next w2) O2 (OIterClients e g)) as (O3 & E3 & F3).
    destruct (walk_clients ts ws cg (w_next w2) ep q t _ _ 0 _) as [[[w4 rl4] cs]|] eqn:HC; [|discriminate].
    destruct (walk_clients_wired _ _ _ _ _ _ _ e g _ 0%nat _ _ _ _ _ O3 HC) as (O4 & E4 & L4 & C4).
    cbn [w_next] in *.
    destruct (walk_cgs ts ws wl ep eq et w4 rl4 (S g) refs) as [[[w5 rl5] css']|] eqn:HW; [|discriminate]. inv H.
    destruct (IH _ _ _ _ _ _ O4 HW) as (O' & E' & L' & C').
    exists O'. split; [|split; [lia|]].
    + eapply ext_trans; [exact E1| |exact L1]. eapply ext_trans; [exact E2| |exact L2].
      eapply ext_trans; [exact E3| |apply Nat.le_refl]. eapply ext_trans; [eapply ext_le; [exact E4|lia]|exact E'|lia].
    + intros [|j] c Hc; cbn in Hc.
      * inv Hc. exists r, cg. rewrite Nat.add_0_r. split; auto. split; auto.
        apply (cg_wired_ext O4 O' (w_next w4)); auto.
        assert (E24 : ext (w_next w2) O2 O4).
        { apply (ext_trans (w_next w2) (w_next w2) O2 O3 O4); [exact E3|eapply ext_le; [exact E4|]; lia|lia]. }
        exists (w_next w2), q, t.
        split; [exists l1; split; auto; eapply own_ext; [exact E24|lia|eapply own_ext; [exact E2|exact L2|exact W1]]|].
        split; [exists l2; split; auto; eapply own_ext; [exact E24|lia|exact W2]|].
        split; [rewrite E4 by lia; auto|]. split; [lia|]. auto.
      * replace (g + S j)%nat with (S g + j)%nat by lia. exact (C' _ _ Hc).
Qed.

(** the exec groups of the stage *)
Definition eg_wired (O : ownmap) (b e : nat) (wl : list cgcfg) (refs : list nat) (sq st : option rate) (css : list (list client)) : Prop :=
  exists r0 cg0 ep eq et,
    nth_error refs 0 = Some r0 /\ nth_error wl r0 = Some cg0 /\
    (exists l, leaves_of eq = leaves_of sq ++ l /\ own O b (OExecGroup true e) (cg_qpsExecGroup cg0) l) /\
    (exists l, leaves_of et = leaves_of st ++ l /\ own O b (OExecGroup false e) (cg_tpsExecGroup cg0) l) /\
    O ep = Some (OIterExecGroup e) /\ (ep < b)%nat /\
    forall g cs, nth_error css g = Some cs -> exists r cg, nth_error refs g = Some r /\ nth_error wl r = Some cg /\
      cg_wired O b e g cg ep eq et cs.

Lemma eg_wired_ext O O' b b' e wl refs sq st css :
  ext b O O' -> (b <= b')%nat -> eg_wired O b e wl refs sq st css -> eg_wired O' b' e wl refs sq st css.
Proof.
  intros E L (r0 & cg0 & ep & eq & et & R1 & R2 & (l1 & A1 & A2) & (l2 & B1 & B2) & C1 & C2 & D).
  exists r0, cg0, ep, eq, et. split; auto. split; auto.
  split; [exists l1; split; auto; eapply own_ext; eauto|].
  split; [exists l2; split; auto; eapply own_ext; eauto|].
  split; [rewrite E; auto|]. split; [lia|].
  intros g cs Hg. destruct (D g cs Hg) as (r & cg & X & Y & Z). exists r, cg. split; auto. split; auto.
  eapply cg_wired_ext; eauto.
Qed.

Lemma walk_egs_wired ts ws wl sq st : forall gs e w rl w' rl' out O,
  walk_egs ts ws wl sq st w rl e gs = Some (w', rl', out) ->
  exists O', ext (w_next w) O O' /\ (w_next w <= w_next w')%nat /\
  forall j css, nth_error out j = Some css -> exists refs, nth_error gs j = Some refs /\
    eg_wired O' (w_next w') (e + j) wl refs sq st css.
Proof.
  induction gs as [|refs gs IH]; intros e w rl w' rl' out O H; cbn [walk_egs] in H.
  - inv H. exists O. split; [apply ext_refl|]. split; [auto|]. intros [|j]; discriminate.
  - destruct refs as [|r0 refs]; [discriminate|].
    destruct (nth_error wl r0) as [cg|] eqn:HR; [|discriminate].
    destruct (and_new w sq (cg_qpsExecGroup cg)) as [w1 q] eqn:HQ.
    destruct (and_new w1 st (cg_tpsExecGroup cg)) as [w2 t] eqn:HT.
    destruct (and_new_own _ _ _ _ _ (OExecGroup true e) O HQ) as (O1 & l1 & E1 & L1 & A1 & W1).
    destruct (and_new_own _ _ _ _ _ (OExecGroup false e) O1 HT) as (O2 & l2 & E2 & L2 & A2 & W2).
    destruct (fresh_own (w_next w2) O2 (OIterExecGroup e)) as (O3 & E3 & F3).
    destruct (walk_cgs ts ws wl (w_next w2) q t _ _ 0 _) as [[[w4 rl4] cs]|] eqn:HC; [|discriminate].
    destruct (walk_cgs_wired _ _ _ _ _ _ e _ _ _ _ _ _ _ O3 HC) as (O4 & E4 & L4 & C4).
    cbn [w_next] in *.
    destruct (walk_egs ts ws wl sq st w4 rl4 (S e) gs) as [[[w5 rl5] css']|] eqn:HW; [|discriminate]. inv H.
    destruct (IH _ _ _ _ _ _ O4 HW) as (O' & E' & L' & C').
    exists O'. split; [|split; [lia|]].
    + eapply ext_trans; [exact E1| |exact L1]. eapply ext_trans; [exact E2| |exact L2].
      eapply ext_trans; [exact E3| |apply Nat.le_refl]. eapply ext_trans; [eapply ext_le; [exact E4|lia]|exact E'|lia].
    + intros [|j] c Hc; cbn in Hc.
      * inv Hc. exists (r0 :: refs). rewrite Nat.add_0_r. split; auto.
        apply (eg_wired_ext O4 O' (w_next w4)); auto.
        assert (E24 : ext (w_next w2) O2 O4).
        { apply (ext_trans (w_next w2) (w_next w2) O2 O3 O4); [exact E3|eapply ext_le; [exact E4|]; lia|lia]. }
        exists r0, cg, (w_next w2), q, t. split; auto. split; auto.
        split; [exists l1; split; auto; eapply own_ext; [exact E24|lia|eapply own_ext; [exact E2|exact L2|exact W1]]|].
        split; [exists l2; split; auto; eapply own_ext; [exact E24|lia|exact W2]|].
        split; [rewrite E4 by lia; auto|]. split; [lia|]. auto.
      * replace (e + S j)%nat with (S e + j)%nat by lia. exact (C' _ _ Hc).
Qed.

Lemma allocate_wired ts ws stage wl q t w w' out :
  allocate ts ws stage wl q t w = Some (w', out) ->
  exists wl' gs O b sq st, groups ts wl = Some (wl', gs) /\
    own O b (OStage true) q (leaves_of sq) /\ own O b (OStage false) t (leaves_of st) /\
    forall e css, nth_error out e = Some css -> exists refs, nth_error gs e = Some refs /\
      eg_wired O b e wl' refs sq st css.
Proof.
  unfold allocate. intros H.
  destruct (new_rate w q) as [w1 sq] eqn:HQ. destruct (new_rate w1 t) as [w2 st] eqn:HT.
  destruct (groups ts wl) as [[wl' gs]|]; [|discriminate].
  unfold clients in H.
  destruct (walk_egs _ _ _ _ _ _ _ _ _) as [[[w3 rl3] o]|] eqn:HW; [|discriminate]. inv H.
  assert (AQ : and_new w None q = (w1, sq)) by (unfold and_new; rewrite HQ; destruct sq; reflexivity).
  assert (AT : and_new w1 None t = (w2, st)) by (unfold and_new; rewrite HT; destruct st; reflexivity).
  destruct (and_new_own _ _ _ _ _ (OStage true) (fun _ => None) AQ) as (O1 & l1 & E1 & L1 & A1 & W1).
  destruct (and_new_own _ _ _ _ _ (OStage false) O1 AT) as (O2 & l2 & E2 & L2 & A2 & W2).
  cbn in A1, A2. subst l1 l2.
  destruct (walk_egs_wired _ _ _ _ _ _ _ _ _ _ _ _ O2 HW) as (O' & E' & L' & C').
  exists wl', gs, O', (w_next w'), sq, st. split; auto.
  split; [eapply own_ext; [exact E'|exact L'|eapply own_ext; [exact E2|exact L2|exact W1]]|].
  split; [eapply own_ext; [exact E'|exact L'|exact W2]|]. exact C'.
Qed.

(** ** Consequences *)

Definition lab (o : owner) (n : N) : list (owner * N) := if (n =? 0)%N then [] else [(o, n)].

Lemma limits_of_lab q st cg0 cg e g k :
  limits_of q st cg0 cg e g k =
  lab (OStage q) st ++
  lab (OExecGroup q e) (if q then cg_qpsExecGroup cg0 else cg_tpsExecGroup cg0) ++
  lab (OClients q e g) (if q then cg_qpsClients cg else cg_tpsClients cg) ++
  lab (OClient q e g k) (if q then cg_qps cg else cg_tps cg).
Proof.
  unfold limits_of, lab. cbn [filter snd].
  repeat match goal with |- context [(?x =? 0)%N] => destruct (x =? 0)%N end; reflexivity.
Qed.

Lemma own_lab O b o n l : own O b o n l ->
  length l = length (lab o n) /\ map snd l = map snd (lab o n) /\
  forall lf lb, In (lf, lb) (combine l (lab o n)) -> fst lb = o /\ l = [lf] /\ O (fst lf) = Some o.
Proof.
  unfold lab. intros [[-> ->]|(NZ & id & -> & A & _)].
  - cbn. repeat split; auto; contradiction.
  - destruct (N.eqb_spec n 0); [contradiction|]. cbn. split; auto. split; auto.
    intros lf lb [H|[]]. inv H. auto.
Qed.

Lemma combine_app {A B} (a a' : list A) (b b' : list B) :
  length a = length b -> combine (a ++ a') (b ++ b') = combine a b ++ combine a' b'.
Proof. revert b. induction a; destruct b; cbn; intros; try discriminate; auto. f_equal. auto. Qed.

(** the segments of a client's limiter *)
Definition segs (O : ownmap) b (q : bool) (st : N) (cg0 cg : cgcfg) (e g k : nat) (c : client)
  (ls le lg lk : list (nat * N)) : Prop :=
  leaves_of (limiter q c) = ls ++ le ++ lg ++ lk /\
  own O b (OStage q) st ls /\
  own O b (OExecGroup q e) (if q then cg_qpsExecGroup cg0 else cg_tpsExecGroup cg0) le /\
  own O b (OClients q e g) (if q then cg_qpsClients cg else cg_tpsClients cg) lg /\
  own O b (OClient q e g k) (if q then cg_qps cg else cg_tps cg) lk.

Lemma segs_values O b q st cg0 cg e g k c ls le lg lk :
  segs O b q st cg0 cg e g k c ls le lg lk ->
  map snd (leaves_of (limiter q c)) = map snd (limits_of q st cg0 cg e g k).
Proof.
  intros (E & A & B & C & D). rewrite E, limits_of_lab, !map_app.
  apply own_lab in A as (_ & -> & _). apply own_lab in B as (_ & -> & _).
  apply own_lab in C as (_ & -> & _). apply own_lab in D as (_ & -> & _). reflexivity.
Qed.

Lemma segs_in O b q st cg0 cg e g k c ls le lg lk lf lb :
  segs O b q st cg0 cg e g k c ls le lg lk ->
  In (lf, lb) (combine (leaves_of (limiter q c)) (limits_of q st cg0 cg e g k)) ->
  O (fst lf) = Some (fst lb) /\
  ((fst lb = OStage q /\ ls = [lf]) \/ (fst lb = OExecGroup q e /\ le = [lf]) \/
   (fst lb = OClients q e g /\ lg = [lf]) \/ (fst lb = OClient q e g k /\ lk = [lf])).
Proof.
  intros (E & A & B & C & D). rewrite E, limits_of_lab.
  apply own_lab in A as (A & _ & A'). apply own_lab in B as (B & _ & B').
  apply own_lab in C as (C & _ & C'). apply own_lab in D as (D & _ & D').
  rewrite !combine_app by auto. intros H.
  repeat (apply in_app_or in H; destruct H as [H|H]).
  - apply A' in H as (-> & -> & ->). auto.
  - apply B' in H as (-> & -> & ->). auto 6.
  - apply C' in H as (-> & -> & ->). auto 6.
  - apply D' in H as (-> & -> & ->). auto 6.
Qed.

(** counters of a client *)
Definition counters (O : ownmap) (cg : cgcfg) (e g : nat) (c : client) (cp ep : nat) : Prop :=
  O cp = Some (OIterClients e g) /\ O ep = Some (OIterExecGroup e) /\
  c_iterClients c = u32 (cg_iterClients cg) /\
  c_iterClientsPtr c = (if (cg_iterClients cg =? 0)%N then None else Some cp) /\
  c_iterEg c = u32 (cg_iterExecGroup cg) /\
  c_iterEgPtr c = (if (cg_iterExecGroup cg =? 0)%N then None else Some ep).

Lemma client_wired_segs O b e g k cg0 cg cp ep (eq et cq ct sq st : option rate) (q : bool) (t : N) c ls le lg :
  client_wired O b e g k cg cp ep cq ct c ->
  leaves_of (if q then eq else et) = leaves_of (if q then sq else st) ++ le ->
  leaves_of (if q then cq else ct) = leaves_of (if q then eq else et) ++ lg ->
  ls = leaves_of (if q then sq else st) ->
  own O b (OStage q) t ls ->
  own O b (OExecGroup q e) (if q then cg_qpsExecGroup cg0 else cg_tpsExecGroup cg0) le ->
  own O b (OClients q e g) (if q then cg_qpsClients cg else cg_tpsClients cg) lg ->
  exists lk, segs O b q t cg0 cg e g k c ls le lg lk.
Proof.
  intros ((l1 & A1 & A2) & (l2 & B1 & B2) & R) HE HC -> S E C.
  destruct q.
  - exists l1. unfold segs. cbn [limiter]. rewrite A1, HC, HE, <- !app_assoc. auto.
  - exists l2. unfold segs. cbn [limiter]. rewrite B1, HC, HE, <- !app_assoc. auto.
Qed.

Lemma cg_wired_segs O b e g cg0 cg ep (eq et sq st : option rate) (q : bool) (t : N) cs ls le :
  cg_wired O b e g cg ep eq et cs ->
  leaves_of (if q then eq else et) = leaves_of (if q then sq else st) ++ le ->
  ls = leaves_of (if q then sq else st) ->
  own O b (OStage q) t ls ->
  own O b (OExecGroup q e) (if q then cg_qpsExecGroup cg0 else cg_tpsExecGroup cg0) le ->
  exists lg cp, O cp = Some (OIterClients e g) /\
    forall k c, nth_error cs k = Some c ->
      (exists lk, segs O b q t cg0 cg e g k c ls le lg lk) /\
      (O ep = Some (OIterExecGroup e) -> counters O cg e g c cp ep).
Proof.
  intros (cp & cq & ct & (l1 & A1 & A2) & (l2 & B1 & B2) & F1 & F2 & D) HE HS S E.
  exists (if q then l1 else l2), cp. split; auto. intros k c Hc. specialize (D k c Hc). split.
  - eapply client_wired_segs; eauto; destruct q; auto.
  - intros HP. destruct D as (_ & _ & D). unfold counters. auto.
Qed.

(** two clients of one allocation *)
Lemma two_clients ts ws stage wl qn tn w w' out wl' gs :
  allocate ts ws stage wl qn tn w = Some (w', out) -> groups ts wl = Some (wl', gs) ->
  exists O b, forall q e g k c e' g' k' c',
  client_at out e g k = Some c -> client_at out e' g' k' = Some c' ->
  exists cg0 cg cg0' cg' ls le lg lk le' lg' lk' cp ep cp' ep',
    cg_at wl' gs e 0 = Some cg0 /\ cg_at wl' gs e g = Some cg /\
    cg_at wl' gs e' 0 = Some cg0' /\ cg_at wl' gs e' g' = Some cg' /\
    segs O b q (if q then qn else tn) cg0 cg e g k c ls le lg lk /\
    segs O b q (if q then qn else tn) cg0' cg' e' g' k' c' ls le' lg' lk' /\
    counters O cg e g c cp ep /\ counters O cg' e' g' c' cp' ep' /\
    (e = e' -> le = le' /\ ep = ep') /\ (e = e' -> g = g' -> lg = lg' /\ cp = cp') /\
    (e = e' -> g = g' -> k = k' -> lk = lk').
Proof.
  intros H G. destruct (allocate_wired _ _ _ _ _ _ _ _ _ H) as (wl2 & gs2 & O & b & sq & st & G2 & OQ & OT & W).
  assert (X : wl2 = wl' /\ gs2 = gs) by (rewrite G in G2; inv G2; auto). destruct X as [-> ->]. clear G2.
  exists O, b. intros q e g k c e' g' k' c' HC HC'.
  unfold client_at in HC, HC'.
  destruct (nth_error out e) as [css|] eqn:H1; [|discriminate].
  destruct (nth_error css g) as [cs|] eqn:H2; [|discriminate].
  destruct (nth_error out e') as [css'|] eqn:H1'; [|discriminate].
  destruct (nth_error css' g') as [cs'|] eqn:H2'; [|discriminate].
  assert (OS : own O b (OStage q) (if q then qn else tn) (leaves_of (if q then sq else st))) by (destruct q; auto).
  assert (EGS : forall e css, nth_error out e = Some css -> exists refs cg0 ep le,
    nth_error gs e = Some refs /\ cg_at wl' gs e 0 = Some cg0 /\ O ep = Some (OIterExecGroup e) /\
    (forall g cs, nth_error css g = Some cs -> exists cg lg cp, cg_at wl' gs e g = Some cg /\
       O cp = Some (OIterClients e g) /\
       forall k c, nth_error cs k = Some c ->
       (exists lk, segs O b q (if q then qn else tn) cg0 cg e g k c (leaves_of (if q then sq else st)) le lg lk) /\ counters O cg e g c cp ep)).
  { intros e0 css0 E0. destruct (W _ _ E0) as (refs & R1 & r0 & cg0 & ep & eq & et & R2 & R3 & (l1 & A1 & A2) & (l2 & B1 & B2) & F1 & F2 & D).
    exists refs, cg0, ep, (if q then l1 else l2). split; auto. split; [unfold cg_at; rewrite R1, R2; auto|]. split; auto.
    intros g0 cs0 G0. destruct (D _ _ G0) as (r & cg & Q1 & Q2 & Q3).
    destruct (cg_wired_segs O b e0 g0 cg0 cg ep eq et sq st q (if q then qn else tn) cs0 (leaves_of (if q then sq else st)) (if q then l1 else l2) Q3) as (lg & cp & P1 & P2); auto.
    { destruct q; auto. } { destruct q; auto. }
    exists cg, lg, cp. split; [unfold cg_at; rewrite R1, Q1; auto|]. split; auto.
    intros k0 c0 K0. destruct (P2 k0 c0 K0) as [S1 S2]. split; auto. }
  destruct (Nat.eq_dec e e') as [<-|NE].
  - rewrite H1 in H1'. inv H1'. destruct (EGS _ _ H1) as (refs & cg0 & ep & le & R1 & R2 & R3 & D).
    destruct (Nat.eq_dec g g') as [<-|NG].
    + rewrite H2 in H2'. inv H2'. destruct (D _ _ H2) as (cg & lg & cp & Q1 & Q2 & Q3).
      destruct (Nat.eq_dec k k') as [<-|NK].
      * rewrite HC in HC'. inv HC'. destruct (Q3 _ _ HC) as ((lk & S1) & S2).
        exists cg0, cg, cg0, cg, (leaves_of (if q then sq else st)), le, lg, lk, le, lg, lk, cp, ep, cp, ep.
        repeat (split; [assumption|]). auto.
      * destruct (Q3 _ _ HC) as ((lk & S1) & S2). destruct (Q3 _ _ HC') as ((lk' & S1') & S2').
        exists cg0, cg, cg0, cg, (leaves_of (if q then sq else st)), le, lg, lk, le, lg, lk', cp, ep, cp, ep.
        repeat (split; [assumption|]). split; auto. split; auto. intros; contradiction.
    + destruct (D _ _ H2) as (cg & lg & cp & Q1 & Q2 & Q3). destruct (D _ _ H2') as (cg' & lg' & cp' & Q1' & Q2' & Q3').
      destruct (Q3 _ _ HC) as ((lk & S1) & S2). destruct (Q3' _ _ HC') as ((lk' & S1') & S2').
      exists cg0, cg, cg0, cg', (leaves_of (if q then sq else st)), le, lg, lk, le, lg', lk', cp, ep, cp', ep.
      repeat (split; [assumption|]). split; auto. split; intros; contradiction.
  - destruct (EGS _ _ H1) as (refs & cg0 & ep & le & R1 & R2 & R3 & D).
    destruct (EGS _ _ H1') as (refs' & cg0' & ep' & le' & R1' & R2' & R3' & D').
    destruct (D _ _ H2) as (cg & lg & cp & Q1 & Q2 & Q3). destruct (D' _ _ H2') as (cg' & lg' & cp' & Q1' & Q2' & Q3').
    destruct (Q3 _ _ HC) as ((lk & S1) & S2). destruct (Q3' _ _ HC') as ((lk' & S1') & S2').
    exists cg0, cg, cg0', cg', (leaves_of (if q then sq else st)), le, lg, lk, le', lg', lk', cp, ep, cp', ep'.
    repeat (split; [assumption|]). split; [intros; contradiction|]. split; intros; contradiction.
Qed.

Lemma limiters_ok ts ws stage wl qn tn w w' out wl' gs e g k c cg0 cg (q : bool) :
  allocate ts ws stage wl qn tn w = Some (w', out) -> groups ts wl = Some (wl', gs) ->
  client_at out e g k = Some c -> cg_at wl' gs e 0 = Some cg0 -> cg_at wl' gs e g = Some cg ->
  map snd (leaves_of (limiter q c)) = map snd (limits_of q (if q then qn else tn) cg0 cg e g k).
Proof.
  intros H G HC A B. destruct (two_clients _ _ _ _ _ _ _ _ _ _ _ H G) as (O & b & T).
  destruct (T q _ _ _ _ _ _ _ _ HC HC) as (c0 & c1 & c2 & c3 & ls & le & lg & lk & le' & lg' & lk' & cp & ep & cp' & ep' & X0 & X1 & X2 & X3 & S & _).
  assert (c0 = cg0) as -> by congruence. assert (c1 = cg) as -> by congruence.
  eapply segs_values; eauto.
Qed.

Lemma limiters_shared ts ws stage wl qn tn w w' out wl' gs e g k c cg0 cg e' g' k' c' cg0' cg' (q q' : bool) lf lb lf' lb' :
  allocate ts ws stage wl qn tn w = Some (w', out) -> groups ts wl = Some (wl', gs) ->
  client_at out e g k = Some c -> cg_at wl' gs e 0 = Some cg0 -> cg_at wl' gs e g = Some cg ->
  client_at out e' g' k' = Some c' -> cg_at wl' gs e' 0 = Some cg0' -> cg_at wl' gs e' g' = Some cg' ->
  In (lf, lb) (combine (leaves_of (limiter q c)) (limits_of q (if q then qn else tn) cg0 cg e g k)) ->
  In (lf', lb') (combine (leaves_of (limiter q' c')) (limits_of q' (if q' then qn else tn) cg0' cg' e' g' k')) ->
  (fst lf = fst lf' <-> fst lb = fst lb').
Proof.
  intros H G HC A B HC' A' B' I I'. destruct (two_clients _ _ _ _ _ _ _ _ _ _ _ H G) as (O & b & T).
  assert (OW : forall q e g k c cg0 cg lf lb, client_at out e g k = Some c -> cg_at wl' gs e 0 = Some cg0 ->
    cg_at wl' gs e g = Some cg ->
    In (lf, lb) (combine (leaves_of (limiter q c)) (limits_of q (if q then qn else tn) cg0 cg e g k)) -> O (fst lf) = Some (fst lb)).
  { intros q0 e0 g0 k0 c0 d0 d1 f0 b0 Y1 Y2 Y3 Y4.
    destruct (T q0 _ _ _ _ _ _ _ _ Y1 Y1) as (u0 & u1 & u2 & u3 & ls & le & lg & lk & le' & lg' & lk' & cp & ep & cp' & ep' & X0 & X1 & X2 & X3 & S & _).
    assert (u0 = d0) as -> by congruence. assert (u1 = d1) as -> by congruence.
    destruct (segs_in _ _ _ _ _ _ _ _ _ _ _ _ _ _ _ _ S Y4); auto. }
  split; intros E.
  - pose proof (OW _ _ _ _ _ _ _ _ _ HC A B I) as O1. pose proof (OW _ _ _ _ _ _ _ _ _ HC' A' B' I') as O2.
    rewrite E in O1. congruence.
  - assert (Q : q = q').
    { destruct (T q _ _ _ _ _ _ _ _ HC HC) as (u0 & u1 & u2 & u3 & ls & le & lg & lk & le' & lg' & lk' & cp & ep & cp' & ep' & X0 & X1 & X2 & X3 & S & _).
      destruct (T q' _ _ _ _ _ _ _ _ HC' HC') as (v0 & v1 & v2 & v3 & ls' & me & mg & mk & me' & mg' & mk' & dp & fp & dp' & fp' & Y0 & Y1 & Y2 & Y3 & S' & _).
      assert (u0 = cg0) as -> by congruence. assert (u1 = cg) as -> by congruence.
      assert (v0 = cg0') as -> by congruence. assert (v1 = cg') as -> by congruence.
      destruct (segs_in _ _ _ _ _ _ _ _ _ _ _ _ _ _ _ _ S I) as [_ Z].
      destruct (segs_in _ _ _ _ _ _ _ _ _ _ _ _ _ _ _ _ S' I') as [_ Z'].
      destruct Z as [[Z _]|[[Z _]|[[Z _]|[Z _]]]], Z' as [[Z' _]|[[Z' _]|[[Z' _]|[Z' _]]]]; congruence. }
    subst q'.
    destruct (T q _ _ _ _ _ _ _ _ HC HC') as (u0 & u1 & u2 & u3 & ls & le & lg & lk & le' & lg' & lk' & cp & ep & cp' & ep' & X0 & X1 & X2 & X3 & S & S' & _ & _ & SE & SG & SK).
    assert (u0 = cg0) as -> by congruence. assert (u1 = cg) as -> by congruence.
    assert (u2 = cg0') as -> by congruence. assert (u3 = cg') as -> by congruence.
    destruct (segs_in _ _ _ _ _ _ _ _ _ _ _ _ _ _ _ _ S I) as [_ Z].
    destruct (segs_in _ _ _ _ _ _ _ _ _ _ _ _ _ _ _ _ S' I') as [_ Z'].
    destruct Z as [[Z L]|[[Z L]|[[Z L]|[Z L]]]], Z' as [[Z' L']|[[Z' L']|[[Z' L']|[Z' L']]]]; try congruence;
      rewrite Z, Z' in E; inv E.
    + destruct (SE eq_refl). congruence.
    + destruct (SG eq_refl eq_refl). congruence.
    + pose proof (SK eq_refl eq_refl eq_refl). congruence.
Qed.

Lemma counters_shared ts ws stage wl qn tn w w' out wl' gs e g k c e' g' k' c' cg :
  allocate ts ws stage wl qn tn w = Some (w', out) -> groups ts wl = Some (wl', gs) ->
  client_at out e g k = Some c -> client_at out e' g' k' = Some c' -> cg_at wl' gs e g = Some cg ->
  (c_iterClients c = u32 (cg_iterClients cg) /\ (c_iterClientsPtr c = None <-> cg_iterClients cg = 0%N)) /\
  (c_iterEg c = u32 (cg_iterExecGroup cg) /\ (c_iterEgPtr c = None <-> cg_iterExecGroup cg = 0%N)) /\
  (forall p p', c_iterClientsPtr c = Some p -> c_iterClientsPtr c' = Some p' -> (p = p' <-> e = e' /\ g = g')) /\
  (forall p p', c_iterEgPtr c = Some p -> c_iterEgPtr c' = Some p' -> (p = p' <-> e = e')) /\
  (forall p p', c_iterClientsPtr c = Some p -> c_iterEgPtr c' = Some p' -> p <> p').
Proof.
  intros H G HC HC' A. destruct (two_clients _ _ _ _ _ _ _ _ _ _ _ H G) as (O & b & T).
  destruct (T true _ _ _ _ _ _ _ _ HC HC') as (u0 & u1 & u2 & u3 & ls & le & lg & lk & le' & lg' & lk' & cp & ep & cp' & ep' & X0 & X1 & X2 & X3 & S & S' & C & C' & SE & SG & SK).
  assert (u1 = cg) as -> by congruence.
  destruct C as (C1 & C2 & C3 & C4 & C5 & C6), C' as (C1' & C2' & C3' & C4' & C5' & C6').
  split; [|split; [|split; [|split]]].
  - split; auto. rewrite C4. destruct (N.eqb_spec (cg_iterClients cg) 0); split; intros; auto; congruence.
  - split; auto. rewrite C6. destruct (N.eqb_spec (cg_iterExecGroup cg) 0); split; intros; auto; congruence.
  - intros p p' P P'. rewrite C4 in P. rewrite C4' in P'.
    destruct (cg_iterClients cg =? 0)%N; [discriminate|]. destruct (cg_iterClients u3 =? 0)%N; [discriminate|]. inv P. inv P'.
    split; [intros ->; rewrite C1 in C1'; inv C1'; auto|]. intros [E1 E2]. now apply SG.
  - intros p p' P P'. rewrite C6 in P. rewrite C6' in P'.
    destruct (cg_iterExecGroup cg =? 0)%N; [discriminate|]. destruct (cg_iterExecGroup u3 =? 0)%N; [discriminate|]. inv P. inv P'.
    split; [intros ->; rewrite C2 in C2'; inv C2'; auto|]. intros E1. now apply SE.
  - intros p p' P P'. rewrite C4 in P. rewrite C6' in P'.
    destruct (cg_iterClients cg =? 0)%N; [discriminate|]. destruct (cg_iterExecGroup u3 =? 0)%N; [discriminate|]. inv P. inv P'.
    congruence.
Qed.
