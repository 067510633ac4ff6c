(** Notions used to state the generator properties. *)
From Verif Require Import Prelude ScopeModel GenModel.

(** int-range-seq: the number of chunks of size [s] of [b..e] and the [k]-th pair of the endless
    sequence of chunks. *)
Definition nchunks (b e s : Z) : Z := ((e - b) / s + 1)%Z.
Definition chunk (b e s : Z) (k : nat) : Z * Z :=
  let n := (b + (Z.of_nat k mod nchunks b e s) * s)%Z in (n, Z.min e (n + s - 1)).

(** str-fill-az: the 6-bit groups of the random source in the order used: ten per number, least
    significant first. *)
Definition groups6 (x : N) : list N := map (fun j => (x / 2 ^ (6 * N.of_nat j)) mod 2^6)%N (seq 0 10).
Definition bits_of (src : nat -> N) (m : nat) : list N := flat_map (fun p => groups6 (src p)) (seq 0 m).
(** those selecting a letter *)
Definition usable (l : list N) : list N := filter (fun i => (i <? 52)%N) l.

Definition is_letter (c : ascii) : Prop :=
  (97 <= nat_of_ascii c <= 122)%nat \/ (65 <= nat_of_ascii c <= 90)%nat.

(** client-id: the counter a level name stands for. *)
Inductive level_counter : string -> (runcount -> N) -> Prop :=
| LStatement : level_counter "statement" rc_statement
| LTrx : level_counter "trx" rc_trx
| LIter : level_counter "iter" rc_iter
| LConn : level_counter "conn" rc_conn
| LClient : level_counter "client" rc_client
| LClientGroup : level_counter "client-group" rc_cg
| LExecGroup : level_counter "exec-group" rc_eg.

(** Comma separated list. *)
Fixpoint join_comma (l : list string) : string :=
  match l with
  | [] => ""%string
  | [w] => w
  | w :: l' => (w ++ String ","%char (join_comma l'))%string
  end.

(** column: the content saved by the last scan before the end of a history ([None] before any
    scan), given the buffer contents at the start. *)
Fixpoint last_saved (mem : nat -> list ascii) (acc : option colval) (es : list colevent) : option colval :=
  match es with
  | [] => acc
  | ColReuse b s :: es' => last_saved (natupd mem b s) acc es'
  | ColScan (ScanBuf b) :: es' => last_saved mem (Some (CVStr (mem b))) es'
  | ColScan (ScanVal v) :: es' => last_saved mem (Some v) es'
  | ColRead :: es' => last_saved mem acc es'
  end.
