(** Model of the program: main (bin/finch/main.go), boot.Up (boot/boot.go 31-114) and Client.Run
    (compute/client.go 48-61).

    What parsing the command line gives is taken as given (go-arg; boot/cmdline.go 33-50), as are the
    files.  CTRL-C before the program listens for it (boot.go 63) is left out.  Debug output, log output
    and the CPU profile's contents are left out.  A second CTRL-C stays in the channel of boot.go 62. *)
From Verif Require Import Prelude ConfigModel UrlModel ServeModel RemoteModel.
#[local] Open Scope string_scope.
#[local] Open Scope list_scope.

(** boot/cmdline.go 14-31.  [k_args]: the positional arguments, the name of the program first. *)
Record cmdline := Cmd {
  k_client : string; k_cpu : string; k_db : string; k_dsn : string; k_help : bool; k_params : list string;
  k_server : string; k_test : bool; k_version : bool; k_args : list string }.

Inductive bphase :=
| BInit
| BServe (stages : list stage) (s : ServeModel.state)   (* in Server.Run *)
| BRemote (s : RemoteModel.state)                       (* in Client.Run *)
| BExited (code : N).

(** [b_ctrl_c]: CTRL-C was caught and the context cancelled (boot.go 64-66). *)
Record bstate := BSt { b_phase : bphase; b_ctrl_c : bool }.

Inductive bevent :=
| XHelp | XVersion
| XServe (e : ServeModel.event)
| XRemote (e : RemoteModel.event)
| XExit (code : N).

(** [DForce]: 7.5 seconds after CTRL-C (boot.go 69-71). *)
Inductive baction :=
| DStart
| DServe (a : ServeModel.action)
| DRemote (a : RemoteModel.action)
| DReturn
| DCtrlC
| DForce.

Section Boot.
(** What parsing the command line gives, if it is valid. *)
Variable cmd : option cmdline.
(** The environment of config.Load; the stage files by the names given. *)
Variables (E : env) (bases : string -> option (option base)) (file_of : string -> stage_file).
(** As in ServeModel; whether the CPU profile can be created; os.Hostname; the working directory. *)
Variables (dir_of : string -> string) (chdir_ok : string -> bool) (collector_ok prepare_ok : stage -> bool)
          (cpu_ok : string -> bool) (hostname cwd : string).

Definition exit (c : bool) (code : N) (es : list bevent) : bstate * list bevent := (BSt (BExited code) c, es ++ [XExit code]).

(** boot.go 40-113, up to Server.Run or Client.Run.  log.Fatal, and an error in main, exit with 1. *)
Definition up : bstate * list bevent :=
  match cmd with
  | None => exit false 1 []
  | Some k =>
    if k_help k then exit false 0 [XHelp]
    else if k_version k then exit false 0 [XVersion]
    else if (negb (String.eqb (k_cpu k) "") && negb (cpu_ok (k_cpu k)))%bool then exit false 1 []
    else if negb (String.eqb (k_client k) "") then
      (BSt (BRemote RemoteModel.init) false, map XRemote first)
    else if Nat.eqb (List.length (k_args k)) 1 then exit false 1 []
    else
      match load E bases (map file_of (tl (k_args k))) (k_params k) (k_dsn k) (k_db k) with
      | None => exit false 1 []
      | Some stages => (BSt (BServe stages (ServeModel.init cwd)) false, [])
      end
  end.

(** The options of Server.Run and Client.Run (boot.go 88-91, 112). *)
Definition api_of : bool := match cmd with Some k => negb (String.eqb (k_server k) "") | None => false end.
Definition test_of : bool := match cmd with Some k => k_test k | None => false end.
Definition addr_of : string := match cmd with Some k => snd (new_client (with_port (k_client k) "33075")) | None => "" end.

Definition serve_step (stages : list stage) := ServeModel.step api_of test_of stages dir_of chdir_ok collector_ok prepare_ok.
Definition remote_step := RemoteModel.step addr_of hostname.

Definition bstep (s : bstate) (a : baction) : option (bstate * list bevent) :=
  match a, b_phase s with
  | DStart, BInit => Some up
  | DServe ServeModel.ACancel, _ => None
  | DServe x, BServe stages v =>
      match serve_step stages v x with
      | Some (v', es) => Some (BSt (BServe stages v') (b_ctrl_c s), map XServe es)
      | None => None
      end
  | DRemote RemoteModel.ACtrlC, _ => None
  | DRemote x, BRemote m =>
      match remote_step m x with
      | Some (m', es) => Some (BSt (BRemote m') (b_ctrl_c s), map XRemote es)
      | None => None
      end
  (* main.go 12-14; a panic exits with 2 *)
  | DReturn, BServe stages v =>
      match ServeModel.v_phase v with
      | ServeModel.Returned err => Some (exit (b_ctrl_c s) (if err then 1 else 0)%N [])
      | ServeModel.Panicked _ => Some (exit (b_ctrl_c s) 2 [])
      | _ => None
      end
  (* client.go 51-60 *)
  | DReturn, BRemote m =>
      match RemoteModel.m_phase m with
      | RemoteModel.Returned _ => Some (exit (b_ctrl_c s) 0 [])
      | _ => None
      end
  (* boot.go 64-66 *)
  | DCtrlC, BServe stages v =>
      if b_ctrl_c s then Some (s, [])
      else match serve_step stages v ServeModel.ACancel with
           | Some (v', es) => Some (BSt (BServe stages v') true, map XServe es)
           | None => None
           end
  | DCtrlC, BRemote m =>
      if b_ctrl_c s then Some (s, [])
      else match remote_step m RemoteModel.ACtrlC with
           | Some (m', es) => Some (BSt (BRemote m') true, map XRemote es)
           | None => None
           end
  (* boot.go 69-71 *)
  | DForce, BServe _ _ | DForce, BRemote _ => if b_ctrl_c s then Some (exit true 1 []) else None
  | _, _ => None
  end.

Definition binit : bstate := BSt BInit false.

Fixpoint brun (s : bstate) (l : list baction) : option (bstate * list bevent) :=
  match l with
  | [] => Some (s, [])
  | a :: l' =>
      match bstep s a with
      | None => None
      | Some (s1, es) => match brun s1 l' with Some (s2, es') => Some (s2, es ++ es') | None => None end
      end
  end.
End Boot.
