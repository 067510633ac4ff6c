(** What is claimed of a remote instance; only the events of the model are mentioned. *)
From Verif Require Import Prelude ConfigModel RemoteModel.
#[local] Open Scope string_scope.
#[local] Open Scope list_scope.

(** The order of what Client.run does; the events of its goroutine and CTRL-C have no place. *)
Definition rank (e : event) : option nat :=
  match e with
  | QSend GetBoot _ => Some 0 | QAnswer GetBoot _ => Some 1 | QStage _ _ => Some 2
  | QFiles _ => Some 3 | QReporters _ _ => Some 4 | QPrepare _ _ => Some 5
  | QSend (PostBoot _) _ => Some 6 | QAnswer (PostBoot _) _ => Some 7
  | QSend GetRun _ => Some 8 | QAnswer GetRun _ => Some 9
  | QRun => Some 10 | QRunEnd => Some 11
  | QSend PostRun _ => Some 12 | QAnswer PostRun _ => Some 13
  | QReturn _ => Some 14
  | QSend GetPing _ | QAnswer GetPing _ | QStop | QCtrlC => None
  end.
Definition in_order (e' e : event) : Prop :=
  match rank e', rank e with Some x, Some y => x < y | _, _ => True end.
