(** Specification vocabulary for the values of the built-in data generators. *)
From Verif Require Import Prelude ScopeModel GenModel GenSpec DataModel.
From Verif Require ConfigModel TrxModel ReportModel StmtModel ScopeSpec WorkloadModel WorkloadSpec ClientModel ClientSpec ValueModel ValueSpec EndSpec PipeModel.
#[local] Open Scope string_scope.
#[local] Open Scope list_scope.
#[local] Open Scope Z_scope.

(** The number that parameter [k] gives, or else [dflt]. *)
Definition num (ps : smap string) (k : string) (dflt : Z) : Z :=
  match sget k ps with None => dflt | Some s => match TrxModel.atoi s with Some z => z | None => 0 end end.
Definition unum (ps : smap string) (k : string) (dflt : N) : N :=
  match sget k ps with None => dflt | Some s => match TrxModel.parse_uint64 s with Some n => n | None => 0%N end end.
Definition normal_dist (ps : smap string) : Prop := exists s, sget "dist" ps = Some s /\ ReportModel.to_lower s = "normal".

(** Counters of the same client. *)
Definition same_client (a b : runcount) : Prop :=
  rc_client a = rc_client b /\ rc_cg a = rc_cg b /\ rc_eg a = rc_eg b /\ rc_stage a = rc_stage b.
(** The counters that client-id lists: the client number if it has no parameters, else those of [ids]. *)
Definition id_words (ps : smap string) (ws : list string) : Prop :=
  match ps with
  | [] => ws = ["client"]
  | _ => match sget "ids" ps with
         | None | Some "" => ws = []
         | Some s => s = join_comma ws /\ forall w, In w ws -> ~ In ","%char (list_ascii_of_string w)
         end
  end.

(** What the documentation promises of the values of generator [name] with parameters [ps], used by a client with counters
    like [me]. *)
Inductive allowed (me : runcount) : string -> smap string -> list dval -> Prop :=
  | AInt ps v : num ps "min" 1 <= v <= num ps "max" 100000 -> allowed me "int" ps [DInt v]
  | AGaps ps v : num ps "min" 1 <= v <= num ps "max" 100000 -> allowed me "int-gaps" ps [DInt v]
  | ARange ps n m : let size := num ps "size" 100 in let max := num ps "max" 100000 in
      num ps "min" 1 <= n <= m -> m <= max -> (m = n + size - 1 \/ (m = max /\ max < n + size - 1)) ->
      allowed me "int-range" ps [DInt n; DInt m]
  | ASeq ps n m k : (n, m) = chunk (num ps "begin" 1) (num ps "end" 100000) (num ps "size" 100) k ->
      allowed me "int-range-seq" ps [DInt n; DInt m]
  | AInc ps k v : (1 <= k)%N -> v = ((unum ps "start" 0 + k * unum ps "step" 1) mod 2 ^ 64)%N -> allowed me "auto-inc" ps [DUint v]
  | AStr ps s : Z.of_nat (List.length s) = num ps "len" 100 -> Forall is_letter s -> allowed me "str-fill-az" ps [DStr s]
  | AXid ps s : allowed me "xid" ps [DStr s]
  | ACid ps ws fs rc : id_words ps ws -> Forall2 level_counter ws fs -> same_client me rc ->
      allowed me "client-id" ps (map (fun f => DUint (f rc)) fs).

(** Parameters with which the promise is kept (see C07-C13 for the others). *)
Definition sane (name : string) (ps : smap string) : Prop :=
  let mn := num ps "min" 1 in let mx := num ps "max" 100000 in
  (name = "int" -> mn <= mx /\
     (~ normal_dist ps -> 0 < mx) /\
     (normal_dist ps -> let me := num ps "mean" 0 in
        (me <> 0 /\ mn <= me <= mx /\ Z.abs me < 2 ^ 53) \/ (me = 0 /\ 0 <= mn /\ 3 * mn <= mx + 1 /\ mx < 2 ^ 53))) /\
  (name = "int-gaps" -> - 2 ^ 48 <= mn <= 2 ^ 48 /\ 0 <= mx <= 2 ^ 48 /\ 300 <= (mx - mn + 1) * num ps "p" 20) /\
  (name = "int-range" -> 1 <= num ps "size" 100 /\ mx + num ps "size" 100 <= 2 ^ 63) /\
  (name = "int-range-seq" -> 1 <= num ps "size" 100 /\ num ps "end" 100000 + num ps "size" 100 < 2 ^ 63).

(** The letters of str-fill-az are found in time, in each call. *)
Definition letters_end (g : dgen) : Prop :=
  forall len n, fst g = GStr len -> str_values (Z.to_nat len) (dr_src (snd g n)) (dr_fuel (snd g n)) <> None.

(** A generator as a statement's inputs have it: what Copy returns for the one made of the configuration. *)
Definition made_of (fl : string -> bool) (name : string) (ps : smap string) (g : dgen) : Prop :=
  exists g0, gen_make fl name ps = Some g0 /\ gen_copy g0 = Some (fst g).
Definition is_col (g : dgen) : Prop := exists q c, fst g = GCol q c.

(** The number of values that a generator promises. *)
Inductive arity (ps : smap string) : string -> nat -> Prop :=
  | ArOne name : In name ["int"; "int-gaps"; "auto-inc"; "str-fill-az"; "xid"; "column"] -> arity ps name 1
  | ArTwo name : In name ["int-range"; "int-range-seq"] -> arity ps name 2
  | ArIds ws : id_words ps ws -> arity ps "client-id" (List.length ws).

(** ** Keys of a run *)

(** The trx of stage [a] configure data key [key] as [d] (and all of them the same way), and no statement saves it. *)
Definition configured (l : list (ConfigModel.stage * TrxModel.tset)) (a : nat) (key : string) (d : ConfigModel.data) : Prop :=
  exists c0 set x, nth_error l a = Some (c0, set) /\ In x (ConfigModel.s_trx c0) /\
    sget (TrxModel.cfg_key key) (ConfigModel.x_data x) = Some d /\
    (forall y d', In y (ConfigModel.s_trx c0) -> sget (TrxModel.cfg_key key) (ConfigModel.x_data y) = Some d' ->
       ConfigModel.d_gen d' = ConfigModel.d_gen d /\ ConfigModel.d_params d' = ConfigModel.d_params d) /\
    (forall k, sget key (TrxModel.t_keys set) = Some k -> TrxModel.k_col k = None).
(** A key that only one client uses at a time. *)
Definition own_key (sts : list WorkloadModel.stagecfg) (a : nat) (key : string) : Prop :=
  exists sc, WorkloadSpec.scope_in (WorkloadSpec.keys_at WorkloadSpec.no_keys sts a) key = Some sc /\ ScopeSpec.single_client sc.
(** The generators of configured keys are copies of those that are made of the configuration. *)
Definition gens_made (fl : string -> bool) l sts outs (a : nat) (gen0 : nat -> dgen) : Prop :=
  forall key d pl p g0, configured l a key d -> WorkloadSpec.used_at sts outs a pl key p ->
    gen_make fl (ConfigModel.d_gen d) (ConfigModel.d_params d) = Some g0 ->
    gen_copy g0 = Some (fst (gen0 p)) /\ letters_end (gen0 p).

(** The counters that name client [k] of client group [g] of exec group [e] of stage [n]. *)
Definition client_counters (e g k : nat) (n : N) : runcount := RC 0 0 0 0 (N.of_nat (k + 1)) (N.of_nat (g + 1)) (N.of_nat (e + 1)) n.

(** The number of placeholders of the key at slot [j]: its own and the @PREV after it. *)
Definition wants (s : StmtModel.stmt) (j : nat) : nat := Datatypes.S (EndSpec.prevs (skipn (Datatypes.S j) (StmtModel.st_inputs s))).
(** The key at slot [j] of statement [s] has a generator that returns as many values: one of the configuration, a saved column, or one
    that other clients use, too. *)
Inductive fitting l sts outs (a : nat) (c : WorkloadModel.client) (gen0 : nat -> dgen) (log : list (ValueModel.vlog dgen dval)) (s : StmtModel.stmt) (j : nat) (key : string) : Prop :=
  | FConfig d : configured l a key d -> own_key sts a key -> EndSpec.never_saved c key ->
      sane (ConfigModel.d_gen d) (ConfigModel.d_params d) -> ConfigModel.d_gen d <> "column" ->
      arity (ConfigModel.d_params d) (ConfigModel.d_gen d) (wants s j) -> fitting l sts outs a c gen0 log s j key
  | FColumn : own_key sts a key -> wants s j = 1%nat ->
      (forall pl p, WorkloadSpec.used_at sts outs a pl key p ->
         is_col (gen0 p) /\ forall i g, In (ValueModel.LSave i p g) log -> is_col g) -> fitting l sts outs a c gen0 log s j key
  | FShared : (forall pl p i rc us u, WorkloadSpec.used_at sts outs a pl key p -> In (i, rc, us) (ValueSpec.groups log) -> In u us ->
         ValueModel.u_ptr u = p -> List.length (ValueModel.u_vals u) = wants s j) -> fitting l sts outs a c gen0 log s j key.
