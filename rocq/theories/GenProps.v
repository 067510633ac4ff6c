(** Properties of the data generators: C07-C12, C14, C15. *)
From Verif Require Import Prelude ListAux ScopeModel GenModel GenSpec GenProofs.
#[local] Open Scope string_scope.
#[local] Open Scope list_scope.
#[local] Open Scope Z_scope.

(* ------------------------------------------------------------------------------------ *)
(** * C07 *)

(** In bounds, provided max is positive (see [C07_refuted_panic]). *)
Theorem C07_in_bounds_partial pmin pmax pmean bad g v1 v2 d :
  new_int pmin pmax pmean false bad = Some g -> 0 < ig_max g -> ig_min g <= ig_max g ->
  exists v, int_values g d v1 v2 = Some v /\ ig_min g <= v <= ig_max g.
Proof.
  intros H P L. destruct (new_int_uniform _ _ _ _ _ H) as [U _].
  destruct (int63n_some (ig_max g) d P) as [x E]. pose proof (int63n_range _ _ _ E).
  assert (V : exists v, int_values g d v1 v2 = Some v) by (unfold int_values; rewrite U, E; eauto).
  destruct V as [v V]. exists v. split; auto.
  assert (X : exists d, int_values g d v1 v2 = Some v) by eauto.
  apply (int_uniform_exact g v1 v2 v U P L) in X. lia.
Qed.

(** Exactly which values can be returned: all of [max(min,0) .. max-1], so never [max] itself and
    never a negative number (only [max] if min = max). *)
Theorem C07_exact_values pmin pmax pmean bad g v1 v2 v :
  new_int pmin pmax pmean false bad = Some g -> 0 < ig_max g -> ig_min g <= ig_max g ->
  ((exists d, int_values g d v1 v2 = Some v) <->
   (Z.max 0 (ig_min g) <= v < ig_max g \/ (ig_min g = ig_max g /\ v = ig_max g))).
Proof.
  intros H. destruct (new_int_uniform _ _ _ _ _ H) as [U _]. exact (int_uniform_exact g v1 v2 v U).
Qed.

Example C07_example : exists g, new_int (PVal 5) (PVal 10) PNone false false = Some g /\ 0 < ig_max g /\
  ig_min g <= ig_max g /\ map (fun d => int_values g d 0 0) [3; 7; 9; 10; 123456]%N = [Some 5; Some 7; Some 9; Some 5; Some 6].
Proof. eexists. split; [reflexivity|]. vm_compute. intuition congruence. Qed.

Theorem C07_refuted : ~ (forall pmin pmax pmean bad g v1 v2 v,
  new_int pmin pmax pmean false bad = Some g -> 0 < ig_max g -> ig_min g <= v <= ig_max g ->
  exists d, int_values g d v1 v2 = Some v).
Proof.
  intros H. destruct (H (PVal 1) (PVal 10) PNone false _ 0 0 10 eq_refl) as [d D]; cbn; try lia.
  pose proof (proj1 (int_uniform_exact (IntGen 1 10 false 0) 0 0 10 eq_refl ltac:(cbn; lia) ltac:(cbn; lia)) (ex_intro _ d D)).
  cbn in *. lia.
Qed.

(** A range of non-positive numbers is accepted, and every use panics. *)
Theorem C07_refuted_panic : exists pmin pmax pmean bad g,
  new_int pmin pmax pmean false bad = Some g /\ ig_min g <= ig_max g /\ forall d v1 v2, int_values g d v1 v2 = None.
Proof. exists (PVal (-10)), (PVal (-1)), PNone, false. eexists. split; [reflexivity|]. split; [cbn; lia|reflexivity]. Qed.

(* ------------------------------------------------------------------------------------ *)
(** * C08 *)

(** In bounds if the mean is (and is exactly representable). *)
Theorem C08_in_bounds_partial pmin pmax pmean g d v1 v2 :
  new_int pmin pmax pmean true false = Some g ->
  ig_min g <= ig_mean g <= ig_max g -> Z.abs (ig_mean g) < 2^53 ->
  exists v, int_values g d v1 v2 = Some v /\ ig_min g <= v <= ig_max g.
Proof.
  intros H M S.
  assert (N : ig_normal g = true).
  { unfold new_int in H. destruct (int64_from pmin 1); [|discriminate]. destruct (int64_from pmax ROWS); [|discriminate].
    destruct (int64_from pmean 0); [|discriminate]. inv H. reflexivity. }
  assert (V : exists v, int_values g d v1 v2 = Some v).
  { unfold int_values. rewrite N. destruct (_ || _)%bool; [destruct (_ || _)%bool|]; eauto. }
  destruct V as [v V]. exists v. split; auto. destruct (int_normal_bounds _ _ _ _ _ N V) as [|E]; auto.
  rewrite round53_small, i64_id in E by (unfold in64; lia). lia.
Qed.

(** The default mean (max-min+1)/2 ignores min: for 0 <= min it is in the range iff the range is
    wide enough. *)
Theorem C08_default_mean pmin pmax g :
  new_int pmin pmax PNone true false = Some g -> 0 <= ig_min g <= ig_max g -> ig_max g < 2^63 - 1 ->
  (ig_min g <= ig_mean g <= ig_max g <-> 3 * ig_min g <= ig_max g + 1).
Proof.
  intros H L R. unfold new_int in H. destruct (int64_from pmin 1) as [mn|]; [|discriminate].
  destruct (int64_from pmax ROWS) as [mx|]; [|discriminate]. cbn in H. inv H. cbn [ig_min ig_max ig_mean] in *.
  rewrite (i64_id (mx - mn)) by (unfold in64; lia). rewrite i64_id by (unfold in64; lia).
  rewrite Z.quot_div_nonneg by lia. pose proof (Z.div_mod (mx - mn + 1) 2). pose proof (Z.mod_pos_bound (mx - mn + 1) 2). lia.
Qed.

Example C08_example : exists g, new_int (PVal 10) (PVal 100) PNone true false = Some g /\
  ig_min g <= ig_mean g <= ig_max g /\ Z.abs (ig_mean g) < 2^53 /\
  map (fun p => int_values g 0 (fst p) (snd p)) [(50, 7); (5, 60); (101, 9)] = [Some 50; Some 60; Some 45].
Proof. eexists. split; [reflexivity|]. vm_compute. intuition congruence. Qed.

(** min: 100, max: 110 has the default mean 5; two draws outside the range return 5. *)
Theorem C08_refuted : ~ (forall pmin pmax pmean g d v1 v2 v,
  new_int pmin pmax pmean true false = Some g -> ig_min g <= ig_max g ->
  int_values g d v1 v2 = Some v -> ig_min g <= v <= ig_max g).
Proof.
  intros H. specialize (H (PVal 100) (PVal 110) PNone _ 0%N 99 111 5 eq_refl ltac:(cbn; lia) eq_refl). cbn in H. lia.
Qed.

(** A configured mean inside the range can round out of it. *)
Theorem C08_refuted_rounding : ~ (forall pmin pmax pmean g d v1 v2 v,
  new_int pmin pmax pmean true false = Some g -> ig_min g <= ig_mean g <= ig_max g ->
  int_values g d v1 v2 = Some v -> ig_min g <= v <= ig_max g).
Proof.
  intros H. specialize (H (PVal 1) (PVal (2^53 + 3)) (PVal (2^53 + 3)) (IntGen 1 (2^53+3) true (2^53+3)) 0%N 0 0 (2^53 + 4) eq_refl).
  cbn [ig_min ig_max ig_mean] in H. specialize (H ltac:(lia) ltac:(vm_compute; reflexivity)). lia.
Qed.

(* ------------------------------------------------------------------------------------ *)
(** * C09 *)

(** Partial: size must be positive and max + size must not overflow int64, neither of which is
    checked (see the refutations). *)
Theorem C09_pairs_partial ps pn px g d :
  new_int_range ps pn px = Some g -> in64 (ir_min g) -> in64 (ir_max g) -> 1 <= ir_size g ->
  ir_max g + ir_size g <= 2^63 ->
  exists n m, int_range_values g d = Some (n, m) /\ ir_min g <= n <= m /\ m <= ir_max g /\
    (m = n + ir_size g - 1 \/ (m = ir_max g /\ ir_max g < n + ir_size g - 1)).
Proof. exact (int_range_ok ps pn px g d). Qed.

(** Every start but max itself is possible. *)
Theorem C09_every_start ps pn px g n :
  new_int_range ps pn px = Some g -> in64 (ir_min g) -> in64 (ir_max g) -> 1 <= ir_size g ->
  ir_min g <= n < ir_max g -> exists d m, int_range_values g d = Some (n, m).
Proof. exact (int_range_lower ps pn px g n). Qed.

Example C09_example : exists g, new_int_range (PVal 5) (PVal 10) (PVal 20) = Some g /\
  map (int_range_values g) [0; 3; 7; 9; 10]%N = [Some (10, 14); Some (13, 17); Some (17, 20); Some (19, 20); Some (10, 14)].
Proof. eexists. split; [reflexivity|]. vm_compute. reflexivity. Qed.

Theorem C09_refuted_size : ~ (forall ps pn px g d n m,
  new_int_range ps pn px = Some g -> int_range_values g d = Some (n, m) -> n <= m).
Proof. intros H. specialize (H (PVal 0) PNone PNone _ 0%N 1 0 eq_refl eq_refl). lia. Qed.

Theorem C09_refuted_overflow : ~ (forall ps pn px g d n m,
  new_int_range ps pn px = Some g -> in64 (ir_min g) -> in64 (ir_max g) -> 1 <= ir_size g ->
  int_range_values g d = Some (n, m) -> n <= m).
Proof.
  intros H.
  specialize (H (PVal (2^62)) (PVal (2^62 - 1)) (PVal (2^63 - 1)) _ (Z.to_N (2^61 + 1)) (2^62 + 2^61) (- 2^62 - 2^61 - 1) eq_refl).
  unfold in64 in H. cbn [ir_min ir_max ir_size] in H. specialize (H ltac:(lia) ltac:(lia) ltac:(lia) eq_refl). lia.
Qed.

(* ------------------------------------------------------------------------------------ *)
(** * C10 *)

(** The [i]-th pair handed out (in the order in which the callers get the lock) is the [i]-th
    chunk of the endless repetition of the chunks of [begin..end].  Partial: size must be
    positive and end + size must fit in an int64. *)
Theorem C10_chunks_partial ps pb pe g k i :
  new_int_seq ps pb pe = Some g -> in64 (is_begin g) -> 1 <= is_size g -> is_end g + is_size g < 2^63 ->
  (i < k)%nat ->
  nth_error (calls int_seq_values g k) i = Some (chunk (is_begin g) (is_end g) (is_size g) i).
Proof.
  intros H B S O L. destruct (new_int_seq_inv _ _ _ _ H) as (A1 & A2 & A3).
  destruct g as [b e s n]. cbn in *. subst n. apply seq_chunks; auto.
Qed.

(** The chunks of each pass cover each number of the range exactly once ... *)
Theorem C10_each_number_once b e s p x : let c := nchunks b e s in
  b <= e -> 1 <= s -> 0 <= p -> b <= x <= e ->
  exists k, (p * c <= Z.of_nat k < (p + 1) * c /\ fst (chunk b e s k) <= x <= snd (chunk b e s k)) /\
    forall k', p * c <= Z.of_nat k' < (p + 1) * c /\ fst (chunk b e s k') <= x <= snd (chunk b e s k') -> k' = k.
Proof. intros c BE S. exact (cover_once b e s BE S p x). Qed.

(** ... consist of numbers of the range only, and all but the last of a pass have length size,
    each pass starting at [begin] and ending at [end]. *)
Theorem C10_chunk_shape b e s k : let c := nchunks b e s in
  b <= e -> 1 <= s ->
  b <= fst (chunk b e s k) <= snd (chunk b e s k) /\ snd (chunk b e s k) <= e /\
  (Z.of_nat k mod c = 0 -> fst (chunk b e s k) = b) /\
  (Z.of_nat k mod c = c - 1 -> snd (chunk b e s k) = e) /\
  (Z.of_nat k mod c <> c - 1 -> snd (chunk b e s k) = fst (chunk b e s k) + s - 1 /\
     fst (chunk b e s (S k)) = snd (chunk b e s k) + 1).
Proof.
  intros c BE S. pose proof (nchunks_pos b e s BE S) as CP. pose proof (nchunks_last b e s BE S) as [L1 L2].
  unfold chunk. fold c in L1, L2, CP |- *. pose proof (Z.mod_pos_bound (Z.of_nat k) c ltac:(lia)) as R.
  remember (Z.of_nat k mod c) as r eqn:ER. cbn [fst snd].
  assert (r * s <= (c - 1) * s) by nia. assert (0 <= r * s) by nia.
  split; [lia|]. split; [lia|]. split; [intros ->; lia|].
  split; [intros ->; lia|]. intros NE.
  assert (X : Z.of_nat (Datatypes.S k) mod c = r + 1).
  { replace (Z.of_nat (Datatypes.S k)) with (Z.of_nat k + 1) by lia.
    rewrite <- Zplus_mod_idemp_l, <- ER. apply Z.mod_small. lia. }
  rewrite X. assert ((r + 1) * s <= (c - 1) * s) by nia. lia.
Qed.

Example C10_example : exists g, new_int_seq (PVal 4) (PVal 3) (PVal 12) = Some g /\
  calls int_seq_values g 5 = [(3, 6); (7, 10); (11, 12); (3, 6); (7, 10)] /\ nchunks 3 12 4 = 3.
Proof. eexists. split; [reflexivity|]. vm_compute. auto. Qed.

Theorem C10_refuted_size : exists g, new_int_seq (PVal 0) PNone PNone = Some g /\
  forall k, calls int_seq_values g k = repeat (1, 0) k.
Proof.
  eexists. split; [reflexivity|]. induction k as [|k IH]; [reflexivity|]. cbn [calls repeat].
  change (int_seq_values {| is_begin := 1; is_end := ROWS; is_size := 0; is_n := 1 |})
    with ({| is_begin := 1; is_end := ROWS; is_size := 0; is_n := 1 |}, (1, 0)). cbv beta iota.
  now rewrite IH.
Qed.

(** At the end of the int64 range the sequence leaves the range instead of restarting. *)
Theorem C10_refuted_overflow : exists g, new_int_seq (PVal 2) (PVal (2^63 - 4)) (PVal (2^63 - 1)) = Some g /\
  calls int_seq_values g 3 = [(2^63 - 4, 2^63 - 3); (2^63 - 2, 2^63 - 1); (- 2^63, - 2^63 + 1)].
Proof. eexists. split; [reflexivity|]. vm_compute. reflexivity. Qed.

(* ------------------------------------------------------------------------------------ *)
(** * C11 *)

(** The [i]-th call (from 0) returns start + (i+1)*step mod 2^64, whoever calls. *)
Theorem C11_values start step g k i :
  new_auto_inc (Some (Some start)) (Some (Some step)) = Some g -> (i < k)%nat ->
  nth_error (calls auto_inc_values g k) i = Some (u64 (start + (N.of_nat i + 1) * step)).
Proof. intros H L. inv H. apply auto_calls. exact L. Qed.

Theorem C11_defaults k i : (i < k)%nat -> exists g, new_auto_inc None None = Some g /\
  nth_error (calls auto_inc_values g k) i = Some (u64 (N.of_nat i + 1)).
Proof. intros L. eexists. split; [reflexivity|]. rewrite auto_calls by auto. f_equal. f_equal. lia. Qed.

(** No duplicates among any 2^64/gcd(step,2^64) consecutive calls. *)
Theorem C11_no_duplicates start step g k i j v v' :
  new_auto_inc (Some (Some start)) (Some (Some step)) = Some g ->
  nth_error (calls auto_inc_values g k) i = Some v -> nth_error (calls auto_inc_values g k) j = Some v' ->
  (i < j)%nat -> (N.of_nat j < N.of_nat i + 2^64 / N.gcd step (2^64))%N -> v <> v'.
Proof.
  intros H A B L D.
  assert (LN : forall k (g : auto_inc), length (calls auto_inc_values g k) = k).
  { induction k0; intros; cbn; auto. }
  assert (Li : (i < k)%nat) by (rewrite <- (LN k g); apply nth_error_Some; congruence).
  assert (Lj : (j < k)%nat) by (rewrite <- (LN k g); apply nth_error_Some; congruence).
  rewrite (C11_values _ _ _ _ _ H Li) in A. rewrite (C11_values _ _ _ _ _ H Lj) in B. inv A. inv B.
  unfold u64. intros E. apply (f_equal Z.of_N) in E. rewrite !N2Z.inj_mod in E.
  revert E. replace (Z.of_N (start + (N.of_nat i + 1) * step)) with (Z.of_N start + (Z.of_nat i + 1) * Z.of_N step) by lia.
  replace (Z.of_N (start + (N.of_nat j + 1) * step)) with (Z.of_N start + (Z.of_nat j + 1) * Z.of_N step) by lia.
  change (Z.of_N (2 ^ 64)) with (2 ^ 64). apply auto_distinct; [lia|lia|].
  assert (G : Z.of_N (2 ^ 64 / N.gcd step (2 ^ 64)) = 2 ^ 64 / Z.gcd (Z.of_N step) (2 ^ 64)).
  { rewrite N2Z.inj_div. f_equal. destruct step; reflexivity. }
  rewrite <- G. lia.
Qed.

(** Strictly increasing until the sum overflows. *)
Theorem C11_increasing start step g k i j v v' :
  new_auto_inc (Some (Some start)) (Some (Some step)) = Some g -> (1 <= step)%N ->
  nth_error (calls auto_inc_values g k) i = Some v -> nth_error (calls auto_inc_values g k) j = Some v' ->
  (i < j)%nat -> (start + (N.of_nat j + 1) * step < 2^64)%N -> (v < v')%N.
Proof.
  intros H S A B L O.
  assert (LN : forall k (g : auto_inc), length (calls auto_inc_values g k) = k).
  { induction k0; intros; cbn; auto. }
  assert (Li : (i < k)%nat) by (rewrite <- (LN k g); apply nth_error_Some; congruence).
  assert (Lj : (j < k)%nat) by (rewrite <- (LN k g); apply nth_error_Some; congruence).
  rewrite (C11_values _ _ _ _ _ H Li) in A. rewrite (C11_values _ _ _ _ _ H Lj) in B. inv A. inv B.
  unfold u64. rewrite !N.mod_small by nia. nia.
Qed.

Example C11_example : exists g, new_auto_inc (Some (Some (2^64 - 5)%N)) (Some (Some 2%N)) = Some g /\
  calls auto_inc_values g 4 = [2^64 - 3; 2^64 - 1; 1; 3]%N.
Proof. eexists. split; [reflexivity|]. vm_compute. reflexivity. Qed.

(* ------------------------------------------------------------------------------------ *)
(** * C12 *)

(** The string consists of the letters selected by the first [len] usable 6-bit groups of the
    random source, group [i] < 52 selecting the [i]-th of the 52 different letters; in
    particular it has exactly [len] characters, all letters. *)
Theorem C12_exact_string len src fuel out :
  str_values len src fuel = Some out ->
  length out = len /\ Forall is_letter out /\
  exists m, (len <= length (usable (bits_of src m)))%nat /\
    map Some out = map (fun i => nth_error letterBytes (N.to_nat i)) (firstn len (usable (bits_of src m))).
Proof.
  unfold str_values. intros H. destruct (str_loop_sound _ _ _ _ _ _ _ H) as (m & M1 & M2).
  rewrite bits_of_upcoming in *.
  assert (LN : length out = len).
  { apply (f_equal (@length _)) in M2. rewrite !map_length, firstn_length in M2. lia. }
  split; auto. split.
  - apply Forall_forall. intros c C. apply letters_are_letters.
    apply (in_map Some) in C. rewrite M2 in C. apply in_map_iff in C as (i & I & _). eapply nth_error_In; eauto.
  - exists (S m). auto.
Qed.

Theorem C12_letters_distinct i j c :
  nth_error letterBytes i = Some c -> nth_error letterBytes j = Some c -> i = j.
Proof.
  intros A B. eapply (proj1 (NoDup_nth_error letterBytes)); [exact letters_nodup| |congruence].
  apply nth_error_Some. congruence.
Qed.

(** The loop ends as soon as the source has yielded enough usable groups. *)
Theorem C12_ends len src m :
  (1 <= m)%nat -> (len <= length (usable (bits_of src m)))%nat -> exists out, str_values len src (10 * m) = Some out.
Proof.
  intros M L. destruct m as [|m]; [lia|]. unfold str_values.
  rewrite <- bits_of_upcoming in L. eapply str_loop_ends; [exact L|].
  rewrite bits_of_upcoming. unfold bits_of.
  assert (LEN : forall k p, length (flat_map (fun p => groups6 (src p)) (seq p k)) = (10 * k)%nat).
  { induction k as [|k IH]; intros p; [reflexivity|]. cbn [seq flat_map]. rewrite app_length, IH.
    change (length (groups6 (src p))) with 10%nat. lia. }
  rewrite LEN. lia.
Qed.

(** Only positive lengths are accepted. *)
Theorem C12_positive p l : new_str_fill p = Some l -> 1 <= l.
Proof. unfold new_str_fill. destruct (int64_from p 100); [|discriminate]. destruct (Z.leb_spec z 0); intros E; inv E. lia. Qed.

Example C12_example : option_map string_of_list_ascii
  (str_values 13 (fun p => match p with O => 0x123456789abcdef | _ => 0xfedcba987654321 end)%N 100) = Some "VQjEwrJeHmuzh".
Proof. vm_compute. reflexivity. Qed.

(* ------------------------------------------------------------------------------------ *)
(** * C14 *)

(** With ids "l1,l2,..." the values are the caller's own counters of the named levels, in
    order.  (The generator has no state, so earlier calls by other clients do not matter.) *)
Theorem C14_counters ws n ids rc :
  (1 <= n)%nat -> ws <> [] -> ws <> [""] -> (forall w, In w ws -> ~ In ","%char (list_ascii_of_string w)) ->
  new_client_id n (join_comma ws) = Some ids ->
  client_id_n ids = length ws /\ length (client_id_values ids rc) = length ws /\
  forall i w, nth_error ws i = Some w -> exists f, level_counter w f /\ nth_error (client_id_values ids rc) i = Some (f rc).
Proof.
  intros N NE NE1 NC H. unfold new_client_id in H. destruct n as [|n]; [lia|].
  assert (J : join_comma ws <> "").
  { destruct ws as [|w [|w' ws]]; [congruence| |].
    - cbn. congruence.
    - cbn. destruct w; discriminate. }
  apply String.eqb_neq in J. rewrite J, (split_join ws NE NC) in H.
  apply ids_of_nth in H. pose proof (F2_length _ _ _ H) as L.
  unfold client_id_n, client_id_values. rewrite map_length. split; auto. split; auto.
  intros i w W. destruct (Forall2_nth_l _ _ _ _ _ H W) as (x & X1 & X2).
  destruct (id_of_level _ _ X2) as (f & F1 & F2). exists f. split; auto.
  rewrite nth_error_map, X1. cbn. now rewrite F2.
Qed.

(** Every list of known levels is accepted, and without parameters the client number is returned. *)
Theorem C14_accepted ws n :
  (1 <= n)%nat -> ws <> [] -> (forall w, In w ws -> exists f, level_counter w f) ->
  exists ids, new_client_id n (join_comma ws) = Some ids.
Proof.
  intros N NE K. unfold new_client_id. destruct n as [|n]; [lia|]. destruct (join_comma ws =? "")%string; [eauto|].
  rewrite split_join; auto.
  - clear NE. induction ws as [|w ws IH]; [cbn; eauto|]. destruct (K w (or_introl eq_refl)) as (f & F).
    destruct (level_id_of _ _ F) as (i & I & _). destruct IH as [ids IDS]; [intros; apply K; right; auto|].
    cbn. rewrite I, IDS. eauto.
  - intros w W C. destruct (K w W) as (f & F). inversion F; subst; cbn in C; intuition discriminate.
Qed.
Theorem C14_default ids rc : new_client_id 0 ids = Some [4%nat] /\ client_id_values [4%nat] rc = [rc_client rc].
Proof. split; reflexivity. Qed.

Example C14_example : exists ids, new_client_id 1 "client,exec-group,iter,client" = Some ids /\
  client_id_values ids (RC 1 2 3 4 5 6 7 8) = [5; 7; 3; 5]%N.
Proof. eexists. split; [reflexivity|]. reflexivity. Qed.

(* ------------------------------------------------------------------------------------ *)
(** * C15 *)

(** The [i]-th use of a column returns the one value saved by the last scan before it, as it was
    at the scan, whatever the driver did to its buffers since; the nil value before any scan. *)
Theorem C15_last_saved mem es i v :
  nth_error (column_run mem column_new es) i = Some v ->
  exists es1 es2, es = es1 ++ ColRead :: es2 /\
    length (filter (fun e => match e with ColRead => true | _ => false end) es1) = i /\
    v = [match last_saved mem None es1 with Some v => v | None => CVNil end].
Proof. exact (column_run_ok es mem column_new None eq_refl i v). Qed.

(** Nothing but a scan changes it. *)
Theorem C15_stable mem acc es : (forall a, ~ In (ColScan a) es) -> last_saved mem acc es = acc.
Proof.
  revert mem. induction es as [|[b s|a|] es IH]; intros mem H; cbn; auto.
  - apply IH. intros a A. apply (H a). right. auto.
  - exfalso. apply (H a). left. auto.
  - apply IH. intros a A. apply (H a). right. auto.
Qed.

Example C15_example : let str := list_ascii_of_string in
  column_run (fun _ => []) column_new
    [ColRead; ColReuse 0 (str "abc"); ColScan (ScanBuf 0); ColReuse 0 (str "xy"); ColRead;
     ColScan (ScanVal (CVVal 7)); ColRead; ColScan (ScanBuf 0); ColReuse 0 (str "zzz"); ColRead; ColScan (ScanVal CVNil); ColRead] =
  [[CVNil]; [CVStr (str "abc")]; [CVVal 7]; [CVStr (str "xy")]; [CVNil]].
Proof. vm_compute. reflexivity. Qed.

Print Assumptions C07_in_bounds_partial.
Print Assumptions C07_exact_values.
Print Assumptions C07_refuted.
Print Assumptions C07_refuted_panic.
Print Assumptions C08_in_bounds_partial.
Print Assumptions C08_default_mean.
Print Assumptions C08_refuted.
Print Assumptions C08_refuted_rounding.
Print Assumptions C09_pairs_partial.
Print Assumptions C09_every_start.
Print Assumptions C09_refuted_size.
Print Assumptions C09_refuted_overflow.
Print Assumptions C10_chunks_partial.
Print Assumptions C10_each_number_once.
Print Assumptions C10_chunk_shape.
Print Assumptions C10_refuted_size.
Print Assumptions C10_refuted_overflow.
Print Assumptions C11_values.
Print Assumptions C11_defaults.
Print Assumptions C11_no_duplicates.
Print Assumptions C11_increasing.
Print Assumptions C12_exact_string.
Print Assumptions C12_letters_distinct.
Print Assumptions C12_ends.
Print Assumptions C12_positive.
Print Assumptions C14_counters.
Print Assumptions C14_accepted.
Print Assumptions C14_default.
Print Assumptions C15_last_saved.
Print Assumptions C15_stable.
