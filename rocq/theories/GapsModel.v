(** Model of the int-gaps generator: data/integer.go 109-164.

    float64 is Flocq's IEEE 754 binary64 with rounding to nearest even.  Go may fuse the
    multiplication and addition of Values on some machines (not on amd64); it is not fused here. *)
From Coq Require Import ZArith.
From Verif Require Import Prelude ScopeModel GenModel.
From Flocq Require Import Core BinarySingleNaN.

#[local] Instance prec53 : Prec_gt_0 53 := eq_refl.
#[local] Instance emax1024 : Prec_lt_emax 53 1024 := eq_refl.
Definition f64 := binary_float 53 1024.

(** float64(z), x + y, x * y, x / y *)
Definition of_int (z : Z) : f64 := binary_normalize 53 1024 prec53 emax1024 mode_NE z 0 false.
Definition fadd (x y : f64) : f64 := Bplus mode_NE x y.
Definition fmul (x y : f64) : f64 := Bmult mode_NE x y.
Definition fdiv (x y : f64) : f64 := Bdiv mode_NE x y.

(** int64(x): rounds towards zero; what does not fit, and NaN, gives the smallest int64 (amd64; Go
    leaves it to the implementation). *)
Definition to_int (x : f64) : Z :=
  if is_finite x then
    let z := Btrunc x in
    if ((- 2 ^ 63 <=? z) && (z <? 2 ^ 63))%Z%bool then z else (- 2 ^ 63)%Z
  else (- 2 ^ 63)%Z.

(** data/integer.go 110-115, [IntGaps] *)
Record gaps := Gaps { g_input : Z; g_start : f64; g_slope : f64 }.

(** data/integer.go 119-151, [NewIntGaps] *)
Definition new_gaps (min max p : param) : option gaps :=
  match int64_from min 1 with None => None | Some mn =>
  match int64_from max ROWS with None => None | Some mx =>
    let size := i64 (i64 (mx - mn) + 1) in
    if (size <=? 0)%Z then None
    else
      match int64_from p 20 with None => None | Some pc =>
        if ((pc <? 1) || (100 <? pc))%Z%bool then None
        else
          let input := to_int (fmul (of_int size) (fdiv (of_int pc) (of_int 100))) in
          Some (Gaps input (of_int mn) (fdiv (of_int (i64 (mx - mn))) (of_int (i64 (input - 1)))))
      end
  end end.

(** data/integer.go 162-164, [IntGaps.Values]; [None]: rand.Int63n panics. *)
Definition gaps_values (g : gaps) (draw : N) : option Z :=
  match int63n (g_input g) draw with
  | None => None
  | Some r => Some (to_int (fadd (g_start g) (fmul (of_int r) (g_slope g))))
  end.
