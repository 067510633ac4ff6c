(** What reports have to look like. *)
From Verif Require Import Prelude ConfigModel ConfigSpec ClientModel StatsModel ReportModel.
From Verif Require TrxSpec.
#[local] Open Scope list_scope.
#[local] Open Scope string_scope.

(** The character does not occur. *)
Definition lacks (c : ascii) (s : string) : Prop := ~ In c (list_ascii_of_string s).

(** The texts between the occurrences of [c]. *)
Fixpoint split_on (c : ascii) (s : string) : list string :=
  match s with
  | "" => [""]
  | String d s' =>
      if Ascii.eqb d c then "" :: split_on c s'
      else match split_on c s' with w :: ws => String d w :: ws | [] => [String d ""] end
  end.

(** The number written: decimal digits, most significant first, without leading zeros. *)
Fixpoint number (acc : N) (s : string) : N :=
  match s with "" => acc | String c s' => number (10 * acc + (N_of_ascii c - 48)) s' end.

(** The instance as [csv_report] and [stdout_report] see it. *)
Definition seen {F} (i : instance (F := F)) : inst := Inst (i_host i) (i_clients i) (i_interval i) (i_total i).

(** The text of a percentile: digits, with or without a point, or NaN in any case. *)
Inductive reads : string -> pct -> Prop :=
| reads_int a : a <> "" -> digits a -> reads a (Pct (number 0 a) 0)
| reads_point a b : a ++ b <> "" -> digits a -> digits b -> reads (a ++ "." ++ b) (Pct (number 0 (a ++ b)) (String.length b))
| reads_nan s : to_lower s = "nan" -> reads s NaN.

(** Between 0 and 100, or not a number. *)
Definition in_range (p : pct) : Prop :=
  match p with NaN => True | Pct m k => (m <= 100 * 10 ^ N.of_nat k)%N end.

(** The text [w] is the percentile [t] with any number of letters P and p before it and white space around. *)
Definition written (w t : string) : Prop :=
  exists a p b, w = a ++ p ++ t ++ b /\ every TrxSpec.ws a /\ every (fun c => c = "P"%char \/ c = "p"%char) p /\ every TrxSpec.ws b.
