(** Proofs about the data generators. *)
From Verif Require Import Prelude ListAux ScopeModel GenModel GenSpec.
From Coq Require Import Znumtheory.
#[local] Open Scope Z_scope.

Lemma i64_id z : in64 z -> i64 z = z.
Proof. unfold in64, i64. intros H. rewrite Z.mod_small; lia. Qed.
Lemma i64_range z : in64 (i64 z).
Proof. unfold in64, i64. pose proof (Z.mod_pos_bound (z + 2^63) (2^64)). lia. Qed.

Lemma int63n_range n d v : int63n n d = Some v -> 0 <= v < n.
Proof. unfold int63n. destruct (Z.leb_spec n 0); [discriminate|]. intros E. inv E. apply Z.mod_pos_bound. lia. Qed.
Lemma int63n_all n v : 0 <= v < n -> exists d, int63n n d = Some v.
Proof.
  intros H. exists (Z.to_N v). unfold int63n. destruct (Z.leb_spec n 0); [lia|].
  rewrite Z2N.id, Z.mod_small by lia. reflexivity.
Qed.
Lemma int63n_some n d : 0 < n -> exists v, int63n n d = Some v.
Proof. intros H. unfold int63n. destruct (Z.leb_spec n 0); [lia|eauto]. Qed.

(** ** int *)

Lemma new_int_uniform pmin pmax pmean bad g :
  new_int pmin pmax pmean false bad = Some g -> ig_normal g = false /\
  ig_min g = match pmin with PVal z => z | _ => 1 end /\ ig_max g = match pmax with PVal z => z | _ => ROWS end.
Proof.
  unfold new_int, int64_from. destruct pmin, pmax; intros H; try discriminate; inv H; auto.
Qed.

Lemma int_uniform_exact g v1 v2 v :
  ig_normal g = false -> 0 < ig_max g -> ig_min g <= ig_max g ->
  ((exists d, int_values g d v1 v2 = Some v) <->
   (Z.max 0 (ig_min g) <= v < ig_max g \/ (ig_min g = ig_max g /\ v = ig_max g))).
Proof.
  intros U P L. unfold int_values. rewrite U. split.
  - intros [d H]. destruct (int63n (ig_max g) d) as [x|] eqn:E; [|discriminate]. apply int63n_range in E.
    inv H. destruct (Z.ltb_spec x (ig_min g)); lia.
  - intros H. destruct (Z.eq_dec (ig_min g) (ig_max g)) as [EQ|NE].
    + destruct (int63n_all (ig_max g) 0) as [d E]; [lia|]. exists d. rewrite E.
      destruct (Z.ltb_spec 0 (ig_min g)); [|lia]. f_equal. lia.
    + destruct (int63n_all (ig_max g) v) as [d E]; [lia|]. exists d. rewrite E.
      destruct (Z.ltb_spec v (ig_min g)); [lia|reflexivity].
Qed.

(** ** round53 *)

Lemma round53_small z : Z.abs z < 2^53 -> round53 z = z.
Proof.
  intros H. unfold round53.
  assert (Z.log2 (Z.abs z) < 53).
  { destruct (Z.eq_dec (Z.abs z) 0) as [->|N]; [cbn; lia|]. apply Z.log2_lt_pow2; lia. }
  destruct (Z.leb_spec (Z.log2 (Z.abs z) - 52) 0); [reflexivity|lia].
Qed.

Lemma int_normal_bounds g d v1 v2 v :
  ig_normal g = true -> int_values g d v1 v2 = Some v -> (ig_min g <= v <= ig_max g) \/ v = i64 (round53 (ig_mean g)).
Proof.
  intros N. unfold int_values. rewrite N.
  destruct (Z.ltb_spec v1 (ig_min g)), (Z.ltb_spec (ig_max g) v1), (Z.ltb_spec v2 (ig_min g)), (Z.ltb_spec (ig_max g) v2);
    cbn; intros E; inv E; auto; left; lia.
Qed.

(** ** int-range *)

Lemma i64_sub_lt a b : in64 a -> in64 b -> a < b -> 1 <= i64 (b - a) -> i64 (b - a) = b - a.
Proof.
  unfold in64, i64. intros A B L H.
  destruct (Z.lt_ge_cases (b - a) (2^63)); [rewrite Z.mod_small; lia|].
  exfalso. replace (b - a + 2^63) with ((b - a - 2^63) + 1 * 2^64) in H by lia.
  rewrite Z.mod_add, Z.mod_small in H; lia.
Qed.

Lemma new_int_range_inv ps pn px g :
  new_int_range ps pn px = Some g ->
  ir_size g = match ps with PVal z => z | _ => 100 end /\
  ir_min g = match pn with PVal z => z | _ => 1 end /\ ir_max g = match px with PVal z => z | _ => ROWS end /\
  ir_min g < ir_max g /\ ir_size g <= i64 (ir_max g - ir_min g).
Proof.
  unfold new_int_range. destruct (int64_from ps 100) as [s|] eqn:E1; [|discriminate].
  destruct (int64_from pn 1) as [mn|] eqn:E2; [|discriminate].
  destruct (int64_from px ROWS) as [mx|] eqn:E3; [|discriminate].
  destruct (Z.leb_spec mx mn); [discriminate|]. destruct (Z.ltb_spec (i64 (mx - mn)) s); [discriminate|].
  intros X. inv X. cbn.
  destruct ps, pn, px; cbn in *; try discriminate; inv E1; inv E2; inv E3; repeat split; auto; lia.
Qed.

Lemma int_range_ok ps pn px g d :
  new_int_range ps pn px = Some g -> in64 (ir_min g) -> in64 (ir_max g) -> 1 <= ir_size g ->
  ir_max g + ir_size g <= 2^63 ->
  exists n m, int_range_values g d = Some (n, m) /\ ir_min g <= n <= m /\ m <= ir_max g /\
    (m = n + ir_size g - 1 \/ (m = ir_max g /\ ir_max g < n + ir_size g - 1)).
Proof.
  intros H A B S O. destruct (new_int_range_inv _ _ _ _ H) as (_ & _ & _ & L & SZ).
  pose proof (i64_sub_lt _ _ A B L ltac:(lia)) as D.
  unfold int_range_values. rewrite D.
  destruct (int63n_some (ir_max g - ir_min g) d) as [x E]; [lia|]. rewrite E. pose proof (int63n_range _ _ _ E) as R.
  unfold in64 in *. rewrite (i64_id (ir_min g + x)) by (unfold in64; lia).
  destruct (Z.eq_dec (ir_min g + x + ir_size g) (2^63)) as [EQ|NE].
  - exfalso. lia.
  - rewrite (i64_id (ir_min g + x + ir_size g)) by (unfold in64; lia).
    rewrite i64_id by (unfold in64; lia).
    exists (ir_min g + x). destruct (Z.ltb_spec (ir_max g) (ir_min g + x + ir_size g - 1)).
    + exists (ir_max g). repeat split; lia.
    + eexists. split; [reflexivity|]. repeat split; try lia.
Qed.

Lemma int_range_lower ps pn px g n :
  new_int_range ps pn px = Some g -> in64 (ir_min g) -> in64 (ir_max g) -> 1 <= ir_size g ->
  ir_min g <= n < ir_max g -> exists d m, int_range_values g d = Some (n, m).
Proof.
  intros H A B S N. destruct (new_int_range_inv _ _ _ _ H) as (_ & _ & _ & L & SZ).
  pose proof (i64_sub_lt _ _ A B L ltac:(lia)) as D.
  destruct (int63n_all (ir_max g - ir_min g) (n - ir_min g)) as [d E]; [lia|]. exists d.
  unfold int_range_values. rewrite D, E, (i64_id (ir_min g + (n - ir_min g))) by (unfold in64 in *; lia).
  replace (ir_min g + (n - ir_min g)) with n by lia. eauto.
Qed.

(** ** int-range-seq *)

Lemma new_int_seq_inv ps pb pe g :
  new_int_seq ps pb pe = Some g -> is_begin g <= is_end g /\ is_size g <= i64 (is_end g - is_begin g) /\ is_n g = is_begin g.
Proof.
  unfold new_int_seq. destruct (int64_from ps 100) as [s|]; [|discriminate].
  destruct (int64_from pb 1) as [b|]; [|discriminate]. destruct (int64_from pe ROWS) as [e|]; [|discriminate].
  destruct (Z.ltb_spec e b); [discriminate|]. destruct (Z.ltb_spec (i64 (e - b)) s); [discriminate|].
  intros X. inv X. cbn. auto.
Qed.

Section Seq.
  Variables (b e s : Z).
  Hypotheses (BE : b <= e) (S1 : 1 <= s) (Hb : in64 b) (He : e + s < 2^63).
  Let c := nchunks b e s.

  Lemma nchunks_pos : 1 <= c.
  Proof. clear Hb He. unfold c, nchunks. pose proof (Z.div_pos (e - b) s). lia. Qed.
  Lemma nchunks_last : b + (c - 1) * s <= e < b + c * s.
  Proof.
    clear Hb He.
    unfold c, nchunks. pose proof (Z.div_mod (e - b) s). pose proof (Z.mod_pos_bound (e - b) s).
    replace ((e - b) / s + 1 - 1) with ((e - b) / s) by lia. nia.
  Qed.

  Lemma seq_step r : 0 <= r <= c ->
    let r' := if r =? c then 0 else r in
    int_seq_values (IntSeq b e s (b + r * s)) =
      (IntSeq b e s (b + (r' + 1) * s), (b + r' * s, Z.min e (b + r' * s + s - 1))) /\ 0 <= r' < c.
  Proof.
    intros R r'. pose proof nchunks_pos. pose proof nchunks_last as [L1 L2].
    assert (R' : 0 <= r' < c) by (unfold r'; destruct (Z.eqb_spec r c); lia). split; auto.
    unfold int_seq_values. cbn [is_begin is_end is_size is_n].
    assert (N0 : (if e <? b + r * s then b else b + r * s) = b + r' * s).
    { unfold r'. destruct (Z.eqb_spec r c) as [->|NE].
      - destruct (Z.ltb_spec e (b + c * s)); lia.
      - destruct (Z.ltb_spec e (b + r * s)) as [X|X]; [|reflexivity]. exfalso.
        assert (r <= c - 1) by lia. assert (r * s <= (c - 1) * s) by nia. lia. }
    rewrite N0.
    assert (B1 : b <= b + r' * s <= e).
    { split; [nia|]. assert (r' * s <= (c - 1) * s) by nia. lia. }
    unfold in64 in *.
    rewrite (i64_id (b + r' * s + s)) by (unfold in64; lia). rewrite i64_id by (unfold in64; lia).
    f_equal.
    - f_equal. lia.
    - f_equal. destruct (Z.ltb_spec e (b + r' * s + s - 1)); lia.
  Qed.

  Lemma seq_calls k : forall r i, 0 <= r <= c -> (i < k)%nat ->
    nth_error (calls int_seq_values (IntSeq b e s (b + r * s)) k) i =
    Some (b + ((r + Z.of_nat i) mod c) * s, Z.min e (b + ((r + Z.of_nat i) mod c) * s + s - 1)).
  Proof.
    pose proof nchunks_pos as CP.
    induction k as [|k IH]; intros r i R L; [lia|]. cbn [calls].
    destruct (seq_step r R) as [E R']. cbv zeta in E, R'. rewrite E.
    set (r' := if r =? c then 0 else r) in *.
    assert (M : forall j, (r + j) mod c = (r' + j) mod c).
    { intros j. unfold r'. destruct (Z.eqb_spec r c) as [->|]; auto.
      replace (c + j) with (0 + j + 1 * c) by lia. apply Z.mod_add. lia. }
    destruct i as [|i]; cbn [nth_error].
    - rewrite M, Z.add_0_r, Z.mod_small by lia. reflexivity.
    - rewrite IH by lia. rewrite M. replace (r' + 1 + Z.of_nat i) with (r' + Z.of_nat (S i)) by lia. reflexivity.
  Qed.

  Lemma seq_chunks k i : (i < k)%nat ->
    nth_error (calls int_seq_values (IntSeq b e s b) k) i = Some (chunk b e s i).
  Proof.
    intros L. pose proof nchunks_pos. replace b with (b + 0 * s) at 2 by lia. rewrite seq_calls by lia.
    rewrite Z.add_0_l. reflexivity.
  Qed.

  (** each pass covers each number once *)
  Lemma cover_once (p x : Z) : 0 <= p -> b <= x <= e ->
    exists k, (p * c <= Z.of_nat k < (p + 1) * c /\ fst (chunk b e s k) <= x <= snd (chunk b e s k)) /\
      forall k', p * c <= Z.of_nat k' < (p + 1) * c /\ fst (chunk b e s k') <= x <= snd (chunk b e s k') -> k' = k.
  Proof.
    clear Hb He. intros P X. pose proof nchunks_pos. pose proof nchunks_last as [L1 L2].
    set (j := (x - b) / s).
    assert (J : b + j * s <= x < b + (j + 1) * s).
    { unfold j. pose proof (Z.div_mod (x - b) s). pose proof (Z.mod_pos_bound (x - b) s). nia. }
    assert (J2 : 0 <= j < c).
    { split; [apply Z.div_pos; lia|]. destruct (Z.lt_ge_cases j c); auto. assert (c * s <= j * s) by nia. lia. }
    assert (CH : forall q, 0 <= q < c -> forall k, Z.of_nat k = p * c + q -> Z.of_nat k mod c = q).
    { intros q Q k ->. rewrite Z.add_comm, Z.mod_add, Z.mod_small; lia. }
    exists (Z.to_nat (p * c + j)). assert (K : Z.of_nat (Z.to_nat (p * c + j)) = p * c + j) by (rewrite Z2Nat.id; nia).
    split.
    - split; [nia|]. unfold chunk. fold c. rewrite (CH j J2 _ K). cbn [fst snd]. lia.
    - intros k' [R C]. unfold chunk in C. fold c in C.
      rewrite (CH (Z.of_nat k' - p * c)) in C; [|nia|lia]. cbn [fst snd] in C.
      assert (Z.of_nat k' - p * c = j); [|lia].
      set (q := Z.of_nat k' - p * c) in *. nia.
  Qed.
End Seq.

(** ** auto-inc *)

Lemma auto_calls step k : forall i0 i, (i < k)%nat ->
  nth_error (calls auto_inc_values (AutoInc i0 step) k) i = Some (u64 (i0 + (N.of_nat i + 1) * step)).
Proof.
  induction k as [|k IH]; intros i0 i L; [lia|]. cbn [calls]. unfold auto_inc_values at 1. cbn [ai_i ai_step].
  destruct i as [|i]; cbn [nth_error].
  - do 2 f_equal. lia.
  - rewrite IH by lia. f_equal. unfold u64.
    rewrite N.add_mod_idemp_l by discriminate. f_equal. lia.
Qed.

Lemma mod_eq_divide a b m : 0 < m -> a mod m = b mod m -> (m | a - b).
Proof.
  intros P E. apply Z.mod_divide; [lia|]. rewrite Zminus_mod, E, Z.sub_diag. apply Z.mod_0_l. lia.
Qed.

Lemma auto_distinct start step i j : let m := 2^64 in
  0 <= i -> i < j -> j < i + m / Z.gcd step m ->
  (start + (i + 1) * step) mod m <> (start + (j + 1) * step) mod m.
Proof.
  intros m I L B E. symmetry in E. apply mod_eq_divide in E; [|lia].
  replace (start + (j + 1) * step - (start + (i + 1) * step)) with ((j - i) * step) in E by lia.
  assert (G : 0 < Z.gcd step m).
  { pose proof (Z.gcd_nonneg step m). destruct (Z.eq_dec (Z.gcd step m) 0) as [X|]; [|lia].
    apply Z.gcd_eq_0_r in X. lia. }
  pose proof (Z.gcd_divide_l step m) as [s' S]. pose proof (Z.gcd_divide_r step m) as [m' M].
  set (g := Z.gcd step m) in *.
  assert (MD : m / g = m') by (rewrite M; apply Z.div_mul; lia).
  assert (RP : rel_prime m' s').
  { apply Zgcd_1_rel_prime. 
    assert (X : Z.gcd (step / g) (m / g) = 1) by (apply Z.gcd_div_gcd; [lia|reflexivity]).
    rewrite MD in X. rewrite S in X at 1. rewrite Z.div_mul in X by lia. rewrite Z.gcd_comm. exact X. }
  assert (D : (m' | (j - i) * s')).
  { destruct E as [q Q]. exists q. apply (Z.mul_reg_l _ _ g); [lia|].
    transitivity ((j - i) * step); [rewrite S; ring|]. rewrite Q, M. ring. }
  rewrite Z.mul_comm in D. apply Gauss in D; auto.
  apply Z.divide_pos_le in D; [|lia]. rewrite MD in B. lia.
Qed.

(** ** str-fill-az *)

Definition letter_of (i : N) : option ascii := nth_error letterBytes (N.to_nat i).

Lemma letter_lt i : (i < 52)%N <-> exists c, letter_of i = Some c.
Proof.
  unfold letter_of. split.
  - intros H. destruct (nth_error letterBytes (N.to_nat i)) eqn:E; [eauto|].
    apply nth_error_None in E. change (length letterBytes) with 52%nat in E. lia.
  - intros [c H]. assert (N.to_nat i < length letterBytes)%nat by (apply nth_error_Some; congruence).
    change (length letterBytes) with 52%nat in H0. lia.
Qed.

Lemma letters_nodup : NoDup letterBytes.
Proof. repeat (constructor; [cbn; intuition discriminate|]). constructor. Qed.

Lemma letters_are_letters c : In c letterBytes -> is_letter c.
Proof.
  assert (H : Forall is_letter letterBytes).
  { repeat (constructor; [unfold is_letter; vm_compute; first [left; lia|right; lia]|]). constructor. }
  rewrite Forall_forall in H. auto.
Qed.

(** the groups still to come from a cached number with [r] groups left *)
Definition rest6 (x : N) (r : nat) : list N := map (fun j => (x / 2 ^ (6 * N.of_nat j)) mod 2^6)%N (seq 0 r).

Lemma rest6_S x r : rest6 x (S r) = (x mod 2^6)%N :: rest6 (x / 2^6)%N r.
Proof.
  unfold rest6. cbn [seq map]. f_equal.
  - now rewrite N.mul_0_r, N.pow_0_r, N.div_1_r.
  - rewrite <- seq_shift, map_map. apply map_ext. intros j.
    rewrite N.div_div by (try discriminate; apply N.pow_nonzero; discriminate).
    rewrite <- N.pow_add_r. do 3 f_equal. lia.
Qed.

Definition upcoming (src : nat -> N) (cache : N) (remain p m : nat) : list N :=
  rest6 cache remain ++ flat_map (fun q => groups6 (src q)) (seq p m).

Lemma upcoming_refill src cache p m :
  upcoming src cache 0 p (S m) = upcoming src (src p) letterIdxMax (S p) m.
Proof. reflexivity. Qed.

Lemma upcoming_step src cache r p m :
  upcoming src cache (S r) p m = (cache mod 2^6)%N :: upcoming src (cache / 2^6)%N r p m.
Proof. unfold upcoming. now rewrite rest6_S. Qed.

Lemma usable_cons i l : usable (i :: l) = if (i <? 52)%N then i :: usable l else usable l.
Proof. reflexivity. Qed.

(** what the loop returns: the letters of the first usable groups *)
Lemma str_loop_sound src : forall fuel todo cache remain p out,
  str_loop src fuel todo cache remain p = Some out ->
  exists m, (todo <= length (usable (upcoming src cache remain p m)))%nat /\
    map Some out = map letter_of (firstn todo (usable (upcoming src cache remain p m))).
Proof.
  induction fuel as [|fuel IH]; intros [|todo] cache remain p out H; cbn [str_loop] in H; try discriminate;
    try (inv H; exists 0%nat; split; [lia|reflexivity]).
  assert (STEP : forall cache r p, 
     match nth_error letterBytes (N.to_nat (cache mod 2^6)) with
      | Some b => match str_loop src fuel todo (cache / 2^6) r p with Some l => Some (b :: l) | None => None end
      | None => str_loop src fuel (S todo) (cache / 2^6) r p end = Some out ->
     exists m, (S todo <= length (usable (upcoming src cache (S r) p m)))%nat /\
       map Some out = map letter_of (firstn (S todo) (usable (upcoming src cache (S r) p m)))).
  { intros ca r q X. destruct (nth_error letterBytes (N.to_nat (ca mod 2^6))) as [b|] eqn:E.
    - destruct (str_loop src fuel todo (ca / 2^6) r q) as [l|] eqn:El; [|discriminate]. inv X.
      destruct (IH _ _ _ _ _ El) as (m & M1 & M2). exists m. rewrite upcoming_step, usable_cons.
      assert (LT : (ca mod 2^6 <? 52)%N = true) by (apply N.ltb_lt, letter_lt; exists b; exact E).
      rewrite LT. cbn [length firstn map]. split; [lia|]. rewrite M2. f_equal. symmetry. exact E.
    - destruct (IH _ _ _ _ _ X) as (m & M1 & M2). exists m. rewrite upcoming_step, usable_cons.
      destruct (N.ltb_spec (ca mod 2^6) 52) as [LT|_]; [|auto].
      apply letter_lt in LT as [c C]. unfold letter_of in C. congruence. }
  destruct remain as [|r].
  - destruct (STEP (src p) 9%nat (S p)) as (m & M1 & M2); [exact H|].
    exists (S m). rewrite upcoming_refill. auto.
  - apply STEP. cbn [Nat.sub] in H. rewrite Nat.sub_0_r in H. exact H.
Qed.

(** termination: enough usable groups *)
Lemma str_loop_ends src : forall fuel todo cache remain p m,
  (todo <= length (usable (upcoming src cache remain p m)))%nat ->
  (length (upcoming src cache remain p m) <= fuel)%nat ->
  exists out, str_loop src fuel todo cache remain p = Some out.
Proof.
  induction fuel as [|fuel IH]; intros [|todo] cache remain p m H F; cbn [str_loop]; try (eexists; reflexivity).
  - exfalso. destruct (upcoming src cache remain p m); cbn in *; lia.
  - assert (STEP : forall cache r p m, (S todo <= length (usable (upcoming src cache (S r) p m)))%nat ->
      (length (upcoming src cache (S r) p m) <= S fuel)%nat ->
      exists out, match nth_error letterBytes (N.to_nat (cache mod 2^6)) with
      | Some b => match str_loop src fuel todo (cache / 2^6) r p with Some l => Some (b :: l) | None => None end
      | None => str_loop src fuel (S todo) (cache / 2^6) r p end = Some out).
    { intros ca r q n X Y. rewrite upcoming_step, usable_cons in X. rewrite upcoming_step in Y. cbn [length] in Y.
      destruct (N.ltb_spec (ca mod 2^6) 52) as [LT|GE].
      - apply letter_lt in LT as [b B]. unfold letter_of in B. rewrite B. cbn [length] in X.
        destruct (IH todo (ca / 2^6)%N r q n) as [l ->]; [lia|lia|eauto].
      - destruct (nth_error letterBytes (N.to_nat (ca mod 2^6))) as [b|] eqn:E.
        + exfalso. assert (ca mod 2^6 < 52)%N by (apply letter_lt; exists b; exact E). lia.
        + apply (IH (S todo) (ca / 2^6)%N r q n); [exact X|lia]. }
    destruct remain as [|r].
    + destruct m as [|m]; [cbn in H; lia|]. rewrite upcoming_refill in H, F. apply (STEP (src p) 9%nat (S p) m H F).
    + destruct (STEP cache r p m H F) as [out O]. exists out. cbn [Nat.sub]. rewrite Nat.sub_0_r. exact O.
Qed.

Lemma bits_of_upcoming src m : upcoming src (src 0%nat) letterIdxMax 1 m = bits_of src (S m).
Proof. reflexivity. Qed.

Lemma usable_app a b : usable (a ++ b) = usable a ++ usable b.
Proof. apply filter_app. Qed.

Lemma map_some_inj {A} (l l' : list A) : map Some l = map Some l' -> l = l'.
Proof. revert l'. induction l; destruct l'; cbn; intros H; inv H; f_equal; auto. Qed.

(** ** client-id *)

Lemma split_join l : l <> [] -> (forall w, In w l -> ~ In ","%char (list_ascii_of_string w)) ->
  split_comma (join_comma l) = l.
Proof.
  induction l as [|w l IH]; intros NE H; [congruence|].
  assert (W : ~ In ","%char (list_ascii_of_string w)) by (apply H; left; auto).
  assert (G : forall t ts r, split_comma r = t :: ts -> forall w, ~ In ","%char (list_ascii_of_string w) ->
    split_comma (w ++ r)%string = (w ++ t)%string :: ts).
  { intros t ts r R. induction w0 as [|c w0 IHw]; intros N; cbn; auto.
    rewrite IHw by (intros X; apply N; right; auto).
    destruct (Ascii.eqb_spec c ","%char) as [->|]; auto. exfalso. apply N. left. auto. }
  assert (E : split_comma "" = [""%string]) by reflexivity.
  destruct l as [|w' l].
  - cbn [join_comma]. pose proof (G _ _ _ E w W) as X.
    assert (Y : forall s, (s ++ "")%string = s) by (induction s; cbn; congruence).
    rewrite Y in X. exact X.
  - change (join_comma (w :: w' :: l)) with (w ++ String ","%char (join_comma (w' :: l)))%string.
    assert (X : split_comma (join_comma (w' :: l)) = w' :: l) by (apply IH; [discriminate|intros; apply H; right; auto]).
    assert (Z : split_comma (String ","%char (join_comma (w' :: l))) = ""%string :: w' :: l) by (cbn [split_comma]; rewrite X; reflexivity).
    rewrite (G _ _ _ Z w W). assert (Y : forall s, (s ++ "")%string = s) by (induction s; cbn; congruence). now rewrite Y.
Qed.

Lemma id_of_level w i : id_of w = Some i -> exists f, level_counter w f /\ forall rc, rc_get rc i = f rc.
Proof.
  unfold id_of. intros H.
  repeat match type of H with (if String.eqb w ?x then _ else _) = _ =>
    destruct (String.eqb_spec w x) as [->|]; [inv H; eexists; split; [constructor|reflexivity]|] end.
  discriminate.
Qed.
Lemma level_id_of w f : level_counter w f -> exists i, id_of w = Some i /\ forall rc, rc_get rc i = f rc.
Proof. intros H. inversion H; subst; cbn; eexists; split; reflexivity. Qed.

Lemma ids_of_nth ws ids : ids_of ws = Some ids -> Forall2 (fun w i => id_of w = Some i) ws ids.
Proof.
  revert ids. induction ws as [|w ws IH]; intros ids H; cbn in H; [inv H; constructor|].
  destruct (id_of w) eqn:E; [|discriminate]. destruct (ids_of ws) eqn:E2; [|discriminate]. inv H. constructor; auto.
Qed.

(** ** column *)

Lemma last_saved_app mem acc es1 es2 :
  last_saved mem acc (es1 ++ es2) =
  last_saved (fold_left (fun m e => match e with ColReuse b s => natupd m b s | _ => m end) es1 mem)
             (last_saved mem acc es1) es2.
Proof.
  revert mem acc. induction es1 as [|[b s|[b|v]|] es1 IH]; intros; cbn; auto.
Qed.

Definition shows (g : column) (acc : option colval) : Prop :=
  column_values g = [match acc with Some v => v | None => CVNil end].

Lemma column_run_ok es : forall mem g acc, shows g acc ->
  forall i v, nth_error (column_run mem g es) i = Some v ->
  exists es1 es2, es = es1 ++ ColRead :: es2 /\ length (filter (fun e => match e with ColRead => true | _ => false end) es1) = i /\
    v = [match last_saved mem acc es1 with Some v => v | None => CVNil end].
Proof.
  induction es as [|[b s|a|] es IH]; intros mem g acc S i v H; cbn [column_run] in H.
  - destruct i; discriminate.
  - destruct (IH _ _ _ S _ _ H) as (es1 & es2 & -> & L & ->). exists (ColReuse b s :: es1), es2. auto.
  - assert (S' : shows (column_scan mem g a) (Some (match a with ScanBuf b => CVStr (mem b) | ScanVal v => v end))).
    { destruct a; reflexivity. }
    destruct (IH _ _ _ S' _ _ H) as (es1 & es2 & -> & L & ->). exists (ColScan a :: es1), es2. split; auto. split; auto.
    destruct a; reflexivity.
  - destruct i as [|i]; cbn in H.
    + injection H as <-. exists [], es. cbn. auto.
    + destruct (IH _ _ _ S _ _ H) as (es1 & es2 & -> & L & ->). exists (ColRead :: es1), es2. cbn. auto.
Qed.
