(** C105-C107: the program as a whole: the command line, the files, CTRL-C and the exit status
    (boot/boot.go, bin/finch/main.go, compute/client.go 48-61). *)
From Verif Require Import Prelude ConfigModel ConfigProps UrlModel ServeModel ServeSpec ServeProps RemoteModel RemoteProps BootModel BootProofs.
#[local] Open Scope string_scope.
#[local] Open Scope list_scope.

(** What the program is run with: valid but for --help, --version and --client. *)
Definition stages_wanted (k : cmdline) : Prop := k_help k = false /\ k_version k = false /\ k_client k = "".

Section Props.
Variables (E : env) (bases : string -> option (option base)) (file_of : string -> stage_file).
Variables (dir_of : string -> string) (chdir_ok : string -> bool) (collector_ok prepare_ok : stage -> bool)
          (cpu_ok : string -> bool) (hostname cwd : string).
Notation program cmd := (brun cmd E bases file_of dir_of chdir_ok collector_ok prepare_ok cpu_ok hostname cwd binit).
Notation step cmd := (bstep cmd E bases file_of dir_of chdir_ok collector_ok prepare_ok cpu_ok hostname cwd).
Notation loaded k := (load E bases (map file_of (tl (k_args k))) (k_params k) (k_dsn k) (k_db k)).

Ltac shapes H := pose proof (shape_run _ _ _ _ _ _ _ _ _ _ _ _ _ _ H) as S;
  inversion S as [|code0 es0 U|stgs sl v ses cc U R C|stgs sl v ses cc code0 U R C K|rl m res cc U R C|rl m res cc code0 U R C K]; subst; clear S.

(** ** C105: nothing is done unless the command line and every file are valid; then the stages of the
    files are run, in the order given *)

(** Anything of a stage happens only if all files could be loaded, and none is left out or added. *)
Theorem C105_valid : forall cmd l s es e, program cmd l = Some (s, es) -> In (XServe e) es ->
  exists k stages, cmd = Some k /\ stages_wanted k /\ 1 <> length (k_args k) /\ loaded k = Some stages /\
    length stages = length (tl (k_args k)) /\
    forall i name, nth_error (tl (k_args k)) i = Some name ->
    exists c, nth_error stages i = Some c /\ s_file c = f_abs (file_of name) /\ s_n c = S i.
Proof.
  intros cmd l s es e H Hi. shapes H.
  - destruct Hi.
  - apply up_exit in U as [(k & _ & _ & _ & ->)|[(k & _ & _ & _ & _ & ->)|(_ & -> & _)]]; cbn in Hi; intuition discriminate.
  - apply up_serve in U as (k & -> & A & B & D & N & L). exists k, stgs. split; [auto|]. split; [now split|]. split; [auto|]. split; [auto|].
    pose proof (ConfigProofs.load_nth _ _ _ _ _ _ _ L) as [G1 G2]. rewrite map_length in G1. split; [auto|].
    intros i name Hn. assert (F : nth_error (map file_of (tl (k_args k))) i = Some (file_of name)) by now rewrite nth_error_map, Hn.
    destruct (G2 _ _ F) as (b & x0 & c1 & c2 & _ & _ & _ & _ & Hc). exists c2. split; [auto|]. eapply loaded_file; eauto.
  - apply up_serve in U as (k & -> & A & B & D & N & L). exists k, stgs. split; [auto|]. split; [now split|]. split; [auto|]. split; [auto|].
    pose proof (ConfigProofs.load_nth _ _ _ _ _ _ _ L) as [G1 G2]. rewrite map_length in G1. split; [auto|].
    intros i name Hn. assert (F : nth_error (map file_of (tl (k_args k))) i = Some (file_of name)) by now rewrite nth_error_map, Hn.
    destruct (G2 _ _ F) as (b & x0 & c1 & c2 & _ & _ & _ & _ & Hc). exists c2. split; [auto|]. eapply loaded_file; eauto.
  - apply in_map_iff in Hi as (x & D & _). discriminate.
  - apply in_app_iff in Hi as [Hi|[Hi|[]]]; [|discriminate]. apply in_map_iff in Hi as (x & D & _). discriminate.
Qed.

(** Each stage is what its file says (C43, C45, C68), prepared in the directory of its file. *)
Theorem C105_prepare : forall cmd l s es i c d st, program cmd l = Some (s, es) ->
  In (XServe (EPrepare i c d st)) es ->
  exists k stages name, cmd = Some k /\ loaded k = Some stages /\ nth_error stages i = Some c /\
    nth_error (tl (k_args k)) i = Some name /\ s_file c = f_abs (file_of name) /\ d = dir_of (f_abs (file_of name)).
Proof.
  intros cmd l s es i c d st H Hi.
  assert (G : forall stages sl v ses,
    ServeModel.run (api_of cmd) (test_of cmd) stages dir_of chdir_ok collector_ok prepare_ok (ServeModel.init cwd) sl = Some (v, ses) ->
    In (EPrepare i c d st) ses -> nth_error stages i = Some c /\ d = dir_of (s_file c)).
  { intros stages sl v ses R HI. apply in_split in HI as (a & b & Es). destruct (C84_prepare _ _ _ _ _ _ _ _ _ _ _ _ _ _ _ _ _ R Es) as (? & ? & _). auto. }
  destruct (C105_valid _ _ _ _ _ H Hi) as (k & stages & -> & W & _ & L & Hlen & Hf). exists k, stages.
  assert (J : nth_error stages i = Some c /\ d = dir_of (s_file c)).
  { shapes H.
    - destruct Hi.
    - apply up_exit in U as [(k0 & _ & _ & _ & ->)|[(k0 & _ & _ & _ & _ & ->)|(_ & -> & _)]]; cbn in Hi; intuition discriminate.
    - apply up_serve in U as (k0 & Ek & _ & _ & _ & _ & L0). inv Ek. rewrite L in L0. inv L0.
      apply in_map_iff in Hi as (x & Dx & Hi). inv Dx. eauto.
    - apply up_serve in U as (k0 & Ek & _ & _ & _ & _ & L0). inv Ek. rewrite L in L0. inv L0.
      apply in_app_iff in Hi as [Hi|[Hi|[]]]; [|discriminate]. apply in_map_iff in Hi as (x & Dx & Hi). inv Dx. eauto.
    - apply in_map_iff in Hi as (x & Dx & _). discriminate.
    - apply in_app_iff in Hi as [Hi|[Hi|[]]]; [|discriminate]. apply in_map_iff in Hi as (x & Dx & _). discriminate. }
  destruct J as [Hc ->]. destruct (nth_error (tl (k_args k)) i) as [name|] eqn:En.
  - exists name. destruct (Hf _ _ En) as (c' & Hc' & Ef & _). rewrite Hc in Hc'. inv Hc'. rewrite Ef. auto 7.
  - exfalso. apply nth_error_None in En. assert (X : nth_error stages i <> None) by congruence. apply nth_error_Some in X. lia.
Qed.

(** What happens until the program exits is what running these stages is (C84-C86), with the remotes
    served exactly if --server is given, and only booted if --test is. *)
Theorem C105_stages : forall k l s es, program (Some k) l = Some (s, es) -> stages_wanted k ->
  (exists e, In (XServe e) es) ->
  exists stages sl v ses, loaded k = Some stages /\
    ServeModel.run (negb (String.eqb (k_server k) "")) (k_test k) stages dir_of chdir_ok collector_ok prepare_ok (ServeModel.init cwd) sl = Some (v, ses) /\
    (es = map XServe ses \/ exists code, es = map XServe ses ++ [XExit code]).
Proof.
  intros k l s es H (A & B & D) [e Hi]. shapes H.
  - destruct Hi.
  - apply up_exit in U as [(k0 & _ & _ & _ & ->)|[(k0 & _ & _ & _ & _ & ->)|(_ & -> & _)]]; cbn in Hi; intuition discriminate.
  - apply up_serve in U as (k0 & Ek & _ & _ & _ & _ & L). inv Ek. exists stgs, sl, v, ses. auto.
  - apply up_serve in U as (k0 & Ek & _ & _ & _ & _ & L). inv Ek. exists stgs, sl, v, ses. eauto.
  - apply up_remote in U as (k0 & Ek & _ & _ & X). inv Ek. congruence.
  - apply up_remote in U as (k0 & Ek & _ & _ & X). inv Ek. congruence.
Qed.

(** If the command line, or any file on it, is not valid the program exits with 1 and does nothing else. *)
Theorem C105_nothing : forall cmd l s es, program cmd l = Some (s, es) ->
  match cmd with
  | None => True
  | Some k => stages_wanted k /\ (length (k_args k) = 1 \/ loaded k = None)
  end -> es = [] \/ es = [XExit 1].
Proof.
  intros cmd l s es H Hb. shapes H.
  - auto.
  - apply up_exit in U as [(k0 & -> & X & _)|[(k0 & -> & _ & X & _)|(_ & -> & _)]]; auto; destruct Hb as ((A & B & D) & _); congruence.
  - apply up_serve in U as (k0 & -> & _ & _ & _ & N & L). destruct Hb as (_ & [?|?]); congruence.
  - apply up_serve in U as (k0 & -> & _ & _ & _ & N & L). destruct Hb as (_ & [?|?]); congruence.
  - apply up_remote in U as (k0 & -> & _ & _ & X). destruct Hb as ((A & B & D) & _); congruence.
  - apply up_remote in U as (k0 & -> & _ & _ & X). destruct Hb as ((A & B & D) & _); congruence.
Qed.

(** --help and --version print and exit with 0, whatever else is on the command line. *)
Theorem C105_help : forall k l s es, program (Some k) l = Some (s, es) ->
  (k_help k = true -> es = [] \/ es = [XHelp; XExit 0]) /\
  (k_help k = false -> k_version k = true -> es = [] \/ es = [XVersion; XExit 0]).
Proof.
  intros k l s es H. shapes H.
  - auto.
  - apply up_exit in U as [(k0 & Ek & X & _ & ->)|[(k0 & Ek & Y & X & _ & ->)|(_ & -> & [X|(k0 & Ek & X & Y & _)])]]; try discriminate; inv Ek; split; intros; auto; congruence.
  - apply up_serve in U as (k0 & Ek & X & Y & _). inv Ek. split; congruence.
  - apply up_serve in U as (k0 & Ek & X & Y & _). inv Ek. split; congruence.
  - apply up_remote in U as (k0 & Ek & X & Y & _). inv Ek. split; congruence.
  - apply up_remote in U as (k0 & Ek & X & Y & _). inv Ek. split; congruence.
Qed.

(** With --client no file is read and no stage of the command line is run; the program is a remote of the
    server (C87), whose reporter has the address given with the default port. *)
Theorem C105_client : forall k l s es, program (Some k) l = Some (s, es) -> k_client k <> "" ->
  (forall e, ~ In (XServe e) es) /\
  ((exists e, In (XRemote e) es) -> exists rl m res,
     RemoteModel.run (snd (new_client (with_port (k_client k) "33075"))) hostname RemoteModel.init rl = Some (m, res) /\
     (es = map XRemote (first ++ res) \/ exists code, es = map XRemote (first ++ res) ++ [XExit code])).
Proof.
  intros k l s es H Hc. split.
  - intros e Hi. destruct (C105_valid _ _ _ _ _ H Hi) as (k0 & st & Ek & (_ & _ & X) & _). inv Ek. congruence.
  - intros [e Hi]. shapes H.
    + destruct Hi.
    + apply up_exit in U as [(k0 & _ & _ & _ & ->)|[(k0 & _ & _ & _ & _ & ->)|(_ & -> & _)]]; cbn in Hi; intuition discriminate.
    + apply in_map_iff in Hi as (x & Dx & _). discriminate.
    + apply in_app_iff in Hi as [Hi|[Hi|[]]]; [|discriminate]. apply in_map_iff in Hi as (x & Dx & _). discriminate.
    + exists rl, m, res. auto.
    + exists rl, m, res. eauto.
Qed.

(** ** C106: the exit status tells whether the stages were run *)

(** What is true of it without --client: 0 only if every stage of the command line ended (with --test: booted),
    or after CTRL-C; *)
Theorem C106_zero_partial : forall k l s es, program (Some k) l = Some (s, es) -> stages_wanted k -> In (XExit 0) es ->
  In (XServe ECancel) es \/
  forall j, j < length (tl (k_args k)) -> In (XServe (if k_test k then ETested j else EEnd j)) es.
Proof.
  intros k l s es H (A & B & D) Hi. shapes H.
  - destruct Hi.
  - apply up_exit in U as [(k0 & Ek & X & _)|[(k0 & Ek & _ & X & _)|(_ & -> & _)]]; [inv Ek; congruence..|]. cbn in Hi. intuition discriminate.
  - apply in_map_iff in Hi as (x & Dx & _). discriminate.
  - apply in_app_iff in Hi as [Hi|[Hi|[]]]; [apply in_map_iff in Hi as (x & Dx & _); discriminate|]. inv Hi.
    destruct K as [(Hp & _)|[(_ & X)|[(_ & X)|(_ & X)]]]; try discriminate.
    apply (returned_last _ _ _ _ _ _ _ _ _ _ _ _ R) in Hp. apply in_split in Hp as (a & b & Es).
    destruct (C84_return _ _ _ _ _ _ _ _ _ _ _ _ _ _ R Es) as (_ & [G|G]).
    + left. apply in_app_iff. left. apply in_map. rewrite Es. apply in_app_iff. now left.
    + right. apply up_serve in U as (k0 & Ek & _ & _ & _ & _ & L). inv Ek.
      apply ConfigProofs.load_nth in L as [L _]. rewrite map_length in L. intros j Hj.
      apply in_app_iff. left. apply in_map. apply in_app_iff. left. unfold test_of in G. cbn in G. apply G. lia.
  - apply up_remote in U as (k0 & Ek & _ & _ & X). inv Ek. congruence.
  - apply up_remote in U as (k0 & Ek & _ & _ & X). inv Ek. congruence.
Qed.

(** another status only if the command line is not valid, a file of it cannot be loaded, a stage cannot be
    started, the program panics because a disabled stage has no trx, or it is forced to exit after CTRL-C. *)
Theorem C106_nonzero : forall cmd l s es code, program cmd l = Some (s, es) -> In (XExit code) es -> code <> 0%N ->
  (code = 1%N /\ match cmd with
   | None => True
   | Some k => (k_cpu k <> "" /\ cpu_ok (k_cpu k) = false) \/ In (XServe ECancel) es \/ In (XRemote QCtrlC) es \/
       (k_client k = "" /\ (length (k_args k) = 1 \/ loaded k = None \/
         exists stages i c, loaded k = Some stages /\ nth_error stages i = Some c /\
          (chdir_ok (dir_of (s_file c)) = false
           \/ (st_disable (s_stats c) <> Some true /\ collector_ok c = false)
           \/ (c_nolocal (s_compute c) = false /\ prepare_ok c = false))))
   end) \/
  (code = 2%N /\ exists k stages i c, cmd = Some k /\ loaded k = Some stages /\ nth_error stages i = Some c /\
     s_disable c = true /\ s_trx c = []).
Proof.
  intros cmd l s es code H Hi Hn. shapes H.
  - destruct Hi.
  - left. apply up_exit in U as [(k0 & Ek & X & Y & ->)|[(k0 & Ek & _ & X & Y & ->)|(-> & -> & Z)]]; cbn in Hi.
    + destruct Hi as [Hi|[Hi|[]]]; [discriminate|]. inv Hi. congruence.
    + destruct Hi as [Hi|[Hi|[]]]; [discriminate|]. inv Hi. congruence.
    + destruct Hi as [Hi|[]]. inv Hi. split; [auto|]. destruct Z as [->|(k & -> & _ & _ & Z)]; [auto|].
      destruct Z as [Z|(Z & [Y|Y])]; auto 10.
  - apply in_map_iff in Hi as (x & Dx & _). discriminate.
  - apply in_app_iff in Hi as [Hi|[Hi|[]]]; [apply in_map_iff in Hi as (x & Dx & _); discriminate|]. inv Hi.
    apply up_serve in U as (k & -> & A & B & D & N & L).
    destruct K as [(_ & X)|[(Hp & ->)|[((i & Hp) & ->)|(Hc & ->)]]]; try congruence.
    + left. split; [auto|]. right. right. right. split; [auto|]. right. right.
      apply (returned_last _ _ _ _ _ _ _ _ _ _ _ _ R) in Hp. apply in_split in Hp as (a & b & Es).
      destruct (C84_return _ _ _ _ _ _ _ _ _ _ _ _ _ _ R Es) as (_ & i & c' & G1 & G2). exists stgs, i, c'. auto.
    + right. split; [auto|]. destruct (panicked_trx _ _ _ _ _ _ _ _ _ _ _ _ R Hp) as (c' & G1 & G2).
      exists k, stgs, i, c'. split; [auto|]. split; [auto|]. split; [auto|]. split; [|auto].
      eapply loaded_trx; eauto. eapply nth_error_In; eauto.
    + left. split; [auto|]. right. left. apply in_app_iff. left. apply in_map. now apply C.
  - apply in_map_iff in Hi as (x & Dx & _). discriminate.
  - apply in_app_iff in Hi as [Hi|[Hi|[]]]; [apply in_map_iff in Hi as (x & Dx & _); discriminate|]. inv Hi.
    apply up_remote in U as (k & -> & _). destruct K as [(_ & X)|(Hc & ->)]; [congruence|].
    left. split; [auto|]. right. right. left. apply in_app_iff. left. apply in_map. apply in_app_iff. right. now apply C.
Qed.

(** The program exits once, with one status, and nothing happens after. *)
Theorem C106_last : forall cmd l s es a code b, program cmd l = Some (s, es) -> es = a ++ XExit code :: b -> b = [].
Proof.
  intros cmd l s es a code b H Es.
  assert (T : forall x, (forall y, ~ In (XExit y) x) -> forall y, x ++ [XExit y] = a ++ XExit code :: b -> b = []).
  { clear. intros x Hx y Ex. destruct b as [|e b]; [auto|]. exfalso. revert a Ex. induction x as [|u x IH]; intros a Ex.
    - destruct a as [|? [|? ?]]; inv Ex.
    - destruct a as [|u' a]; inv Ex; [apply (Hx code); now left|]. apply (IH (fun y H => Hx y (or_intror H)) a H1). }
  assert (T0 : forall x, (forall y, ~ In (XExit y) x) -> x = a ++ XExit code :: b -> b = []).
  { intros x Hx ->. exfalso. apply (Hx code). apply in_app_iff. right. now left. }
  assert (M1 : forall x y, ~ In (XExit y) (map XServe x)) by (intros x y Hy; apply in_map_iff in Hy as (? & ? & _); discriminate).
  assert (M2 : forall x y, ~ In (XExit y) (map XRemote x)) by (intros x y Hy; apply in_map_iff in Hy as (? & ? & _); discriminate).
  shapes H; eauto.
  - destruct a; discriminate.
  - apply up_exit in U as [(k0 & _ & _ & _ & Ex)|[(k0 & _ & _ & _ & _ & Ex)|(_ & Ex & _)]].
    + apply (T [XHelp]) with (y := 0%N); [cbn; intuition discriminate|symmetry; exact Ex].
    + apply (T [XVersion]) with (y := 0%N); [cbn; intuition discriminate|symmetry; exact Ex].
    + apply (T []) with (y := 1%N); [cbn; intuition discriminate|symmetry; exact Ex].
Qed.

(** ** C107: CTRL-C ends the program *)

(** After CTRL-C at most one more stage does anything: the one that runs, or the next; *)
Theorem C107_stage : forall cmd l s es a b e e' i j, program cmd l = Some (s, es) ->
  es = a ++ XServe ECancel :: b -> In (XServe e) b -> In (XServe e') b ->
  stage_of e = Some i -> stage_of e' = Some j -> i = j.
Proof.
  intros cmd l s es a b e e' i j H Es Hi Hj Ei Ej.
  assert (G : forall stages sl v ses x, 
    ServeModel.run (api_of cmd) (test_of cmd) stages dir_of chdir_ok collector_ok prepare_ok (ServeModel.init cwd) sl = Some (v, ses) ->
    (forall e, ~ In (XServe e) x) -> map XServe ses ++ x = a ++ XServe ECancel :: b -> i = j).
  { clear Es H. intros stages sl v ses x R Hx Es.
    assert (D : exists a' b', ses = a' ++ ECancel :: b' /\ a = map XServe a' /\ b = map XServe b' ++ x).
    { clear -Es Hx. revert a Es. induction ses as [|u ses IH]; intros a Es.
      - exfalso. cbn in Es. apply (Hx ECancel). rewrite Es. apply in_app_iff. right. now left.
      - destruct a as [|y a]; inv Es; [exists [], ses; auto|]. destruct (IH a H1) as (a' & b' & -> & -> & ->).
        exists (u :: a'), b'. auto. }
    destruct D as (a' & b' & -> & -> & ->).
    assert (I : forall q, In (XServe q) (map XServe b' ++ x) -> In q b').
    { intros q Hq. apply in_app_iff in Hq as [Hq|Hq]; [|now apply Hx in Hq]. apply in_map_iff in Hq as (q' & Eq & Hq). now inv Eq. }
    apply I in Hi, Hj. clear I.
    assert (N : forall e1 e2 n1 n2, In e1 b' -> In e2 b' -> stage_of e1 = Some n1 -> stage_of e2 = Some n2 -> ~ n1 < n2).
    { intros e1 e2 n1 n2 I1 I2 S1 S2 Hlt. apply in_split in I1 as (p1 & q1 & F1). pose proof (in_split _ _ I2) as (p2 & q2 & F2).
      destruct (C84_next _ _ _ _ _ _ _ _ _ _ _ (a' ++ ECancel :: p2) e2 q2 n2 R) as (_ & _ & G).
      { rewrite F2, <- app_assoc. reflexivity. } { exact S2. }
      destruct (G n1 Hlt) as (r1 & r2 & Er & Hr).
      set (fin := if test_of cmd then ETested n1 else EEnd n1) in *.
      assert (Ha : exists z, a' = r1 ++ fin :: z).
      { assert (Q : forall r a0 : list ServeModel.event, a0 ++ ECancel :: p2 = r ++ fin :: r2 -> ~ In ECancel r -> exists z, a0 = r ++ fin :: z).
        { intros r. induction r as [|u r IH]; intros [|w a0] Q Hr0; cbn in Q; inv Q.
          - unfold fin in H0. destruct (test_of cmd); discriminate.
          - exists a0. auto.
          - exfalso. apply Hr0. now left.
          - destruct (IH a0 H1 (fun H => Hr0 (or_intror H))) as (z & ->). exists z. auto. }
        eapply Q; eauto. }
      destruct Ha as (z & ->).
      assert (O : in_order fin e1).
      { eapply (C84_order _ _ _ _ _ _ _ _ _ _ _ r1 fin (z ++ ECancel :: p1) e1 q1 R). rewrite F1.
        rewrite <- !app_assoc. cbn. rewrite <- !app_assoc. reflexivity. }
      unfold in_order in O. replace (stage_of fin) with (Some n1) in O by (unfold fin; now destruct (test_of cmd)). rewrite S1 in O.
      replace (rank fin) with 7 in O by (unfold fin; now destruct (test_of cmd)).
      destruct O as [O|(_ & [O|(O & O')])]; [lia| |]; destruct e1; cbn in O; try lia; discriminate. }
    assert (~ i < j) by (eapply (N e e'); eauto). assert (~ j < i) by (eapply (N e' e); eauto). lia. }
  revert Es. shapes H; intros Es.
  - destruct a; discriminate.
  - apply up_exit in U as [(k0 & _ & _ & _ & Ex)|[(k0 & _ & _ & _ & _ & Ex)|(_ & Ex & _)]];
      rewrite Ex in Es; destruct a as [|? [|? [|? ?]]]; discriminate.
  - rewrite <- (app_nil_r (map XServe ses)) in Es. eapply G; [exact R| |exact Es]. easy.
  - eapply G; [exact R| |exact Es]. cbn. intuition discriminate.
  - assert (X : In (XServe ECancel) (map XRemote (first ++ res))) by (rewrite Es; apply in_app_iff; right; now left).
    apply in_map_iff in X as (? & ? & _). discriminate.
  - assert (X : In (XServe ECancel) (map XRemote (first ++ res) ++ [XExit code0])) by (rewrite Es; apply in_app_iff; right; now left).
    apply in_app_iff in X as [X|[X|[]]]; [|discriminate]. apply in_map_iff in X as (? & ? & _). discriminate.
Qed.

(** CTRL-C is always taken once the program runs stages or is a remote; and from then on the program can
    exit whatever it does, even if Server.Run hangs (C86); it is never forced to before. *)
Theorem C107_ends : forall cmd l s es, program cmd l = Some (s, es) -> l <> [] -> (forall code, ~ In (XExit code) es) ->
  (exists s' es', step cmd s DCtrlC = Some (s', es') /\
     forall l' s2 es2, brun cmd E bases file_of dir_of chdir_ok collector_ok prepare_ok cpu_ok hostname cwd s' l' = Some (s2, es2) ->
     (forall code, ~ In (XExit code) es2) -> exists s3, step cmd s2 DForce = Some (s3, [XExit 1])) /\
  (~ In (XServe ECancel) es -> ~ In (XRemote QCtrlC) es -> step cmd s DForce = None).
Proof.
  intros cmd l s es H Hl Hx.
  assert (P : forall l' s1 s2 es2, b_ctrl_c s1 = true -> match b_phase s1 with BServe _ _ | BRemote _ => True | _ => False end ->
    brun cmd E bases file_of dir_of chdir_ok collector_ok prepare_ok cpu_ok hostname cwd s1 l' = Some (s2, es2) ->
    (forall code, ~ In (XExit code) es2) -> exists s3, step cmd s2 DForce = Some (s3, [XExit 1])).
  { intros l'. induction l' as [|x l' IH]; intros s1 s2 es2 Hc Hp R He.
    - cbn in R. inv R. destruct s2 as [p c]. cbn in Hc. subst c. destruct p; try contradiction; eexists; reflexivity.
    - cbn [BootModel.brun] in R. destruct (step cmd s1 x) as [[s4 e4]|] eqn:F; [|discriminate].
      destruct (BootModel.brun _ _ _ _ _ _ _ _ _ _ _ s4 l') as [[s5 e5]|] eqn:G; [|discriminate]. inv R.
      assert (He4 : forall code, ~ In (XExit code) e4) by (intros code Hi; apply (He code), in_app_iff; now left).
      assert (He5 : forall code, ~ In (XExit code) e5) by (intros code Hi; apply (He code), in_app_iff; now right).
      refine (IH s4 s2 e5 _ _ G He5); destruct s1 as [p c]; cbn in Hc; subst c; destruct p; try contradiction; unfold BootModel.bstep in F; cbn [b_phase b_ctrl_c] in F.
      all: destruct x as [|x|x| | |]; try discriminate; try (destruct x; discriminate).
      all: try (destruct x; try discriminate; match type of F with match ?X with _ => _ end = _ => destruct X as [[v' es']|]; [|discriminate] end; inv F; cbn; auto; fail).
      all: try (inv F; exfalso; apply (He4 1%N); now left).
      all: try (inv F; cbn; auto; fail).
      all: exfalso; dmh F; try discriminate; inv F; eapply He4; now left. }
  shapes H.
  - exfalso. assert (l = []); [|congruence]. destruct l as [|x l]; [auto|]. cbn [BootModel.brun] in H.
    exfalso. revert H. destruct (step cmd binit x) as [[s1 e1]|] eqn:F; [|discriminate].
    assert (K : match b_phase s1 with BInit => False | _ => True end).
    { destruct x as [|x|x| | |]; try discriminate; try (destruct x; discriminate). cbn in F. inv F.
      pose proof (up_shape cmd E bases file_of cpu_ok cwd) as U. destruct (up _ _ _ _ _ _) as [[p c] e]. inv H0. cbn. destruct p; auto; destruct c; contradiction. }
    assert (Z : forall l s1 s2 e2, match b_phase s1 with BInit => False | _ => True end ->
      brun cmd E bases file_of dir_of chdir_ok collector_ok prepare_ok cpu_ok hostname cwd s1 l = Some (s2, e2) ->
      match b_phase s2 with BInit => False | _ => True end).
    { clear. intros l. induction l as [|x l IH]; intros s1 s2 e2 K R; cbn [BootModel.brun] in R; [now inv R|].
      destruct (step cmd s1 x) as [[s4 e4]|] eqn:F; [|discriminate].
      destruct (BootModel.brun _ _ _ _ _ _ _ _ _ _ _ s4 l) as [[s5 e5]|] eqn:G; [|discriminate]. inv R.
      refine (IH s4 s2 e5 _ G). destruct s1 as [p c]. destruct p; try contradiction; unfold BootModel.bstep in F; cbn [b_phase b_ctrl_c] in F.
      all: destruct x as [|x|x| | |]; try discriminate; try (destruct x; discriminate).
      all: try (destruct x; try discriminate; match type of F with match ?X with _ => _ end = _ => destruct X as [[v' es']|]; [|discriminate] end; inv F; cbn; auto; fail).
      all: repeat (dmh F; try discriminate); inv F; cbn; auto. }
    intros H. destruct (BootModel.brun _ _ _ _ _ _ _ _ _ _ _ s1 l) as [[s5 e5]|] eqn:G; [|discriminate]. inv H.
    exact (Z _ _ _ _ K G).
  - exfalso. apply up_exit in U as [(k0 & _ & _ & _ & Ex)|[(k0 & _ & _ & _ & _ & Ex)|(_ & Ex & _)]]; subst; eapply Hx; cbn; eauto.
  - split.
    + unfold BootModel.bstep. cbn [b_phase b_ctrl_c]. destruct cc.
      * do 2 eexists. split; [reflexivity|]. intros l' s2 es2. apply P; cbn; auto.
      * do 2 eexists. split; [reflexivity|]. intros l' s2 es2. apply P; cbn; auto.
    + intros Hn _. destruct cc; [|reflexivity]. exfalso. apply Hn. apply in_map. now apply C.
  - exfalso. apply (Hx code0). apply in_app_iff. right. now left.
  - split.
    + unfold BootModel.bstep. cbn [b_phase b_ctrl_c]. destruct cc.
      * do 2 eexists. split; [reflexivity|]. intros l' s2 es2. apply P; cbn; auto.
      * do 2 eexists. split; [reflexivity|]. intros l' s2 es2. apply P; cbn; auto.
    + intros _ Hn. destruct cc; [|reflexivity]. exfalso. apply Hn. apply in_map. apply in_app_iff. right. now apply C.
  - exfalso. apply (Hx code0). apply in_app_iff. right. now left.
Qed.
End Props.

(** Two stage files; a file named c.yaml that has no trx, one named d.yaml that asks for no instances. *)
Definition bt_file (n : string) : stage_file :=
  StageFile "/w" ("/w/" ++ n)%string
    (Some (sv_stage "" (if String.eqb n "d.yaml" then "0" else "") false false (if String.eqb n "c.yaml" then [] else [x0]))).
Definition bt_cmd (client : string) (args : list string) : cmdline := Cmd client "" "" "" false [] "" false false ("finch" :: args).
Definition bt_run (k : cmdline) (l : list baction) : option (bphase * list bevent) :=
  match brun (Some k) E0 no_base bt_file sv_dir (fun _ => true) (fun _ => true) (fun _ => true) (fun _ => true) "h" "/" binit l with
  | Some (s, es) => Some (b_phase s, es)
  | None => None
  end.
Definition bt_step : baction := DServe (AServer false).
Definition bt_local (i : nat) : list baction := map DServe (sv_local_stage i).

Example C105_example : exists a b,
  bt_run (bt_cmd "" ["a.yaml"; "b.yaml"]) ([DStart] ++ bt_local 0 ++ bt_local 1 ++ [bt_step; DReturn]) = Some (BExited 0,
    map XServe [EDir 0 "dir of /w/a.yaml"; EPrepare 0 a "dir of /w/a.yaml" true; EBooted 0 None; ERun 0; ELocal 0; ELocalEnd 0; EFinished 0 None; EEnd 0;
      EDir 1 "dir of /w/b.yaml"; EPrepare 1 b "dir of /w/b.yaml" true; EBooted 1 None; ERun 1; ELocal 1; ELocalEnd 1; EFinished 1 None; EEnd 1;
      EReturn false] ++ [XExit 0]) /\
  s_file a = "/w/a.yaml" /\ s_file b = "/w/b.yaml" /\ s_n a = 1 /\ s_n b = 2.
Proof. do 2 eexists. split; [vm_compute; reflexivity|]. repeat split. Qed.
(** The second file is not valid: nothing is run. *)
Example C105_example_invalid : bt_run (bt_cmd "" ["a.yaml"; "c.yaml"]) [DStart] = Some (BExited 1, [XExit 1]).
Proof. vm_compute. reflexivity. Qed.
Example C105_example_client : exists m, bt_run (bt_cmd "srv" []) [DStart; DRemote (ABoot OK (Some ("id1", rm_c)))] =
  Some (BRemote m, map XRemote [QSend GetBoot ""; QAnswer GetBoot OK; QStage "id1" rm_c]).
Proof. eexists. vm_compute. reflexivity. Qed.
Example C105_example_help : bt_run (Cmd "srv" "" "" "" true [] "" false true ["finch"; "c.yaml"]) [DStart] = Some (BExited 0, [XHelp; XExit 0]).
Proof. vm_compute. reflexivity. Qed.

(** C106 is false: with --client the status is 0 although the stage of the server could not be prepared, or
    the server could not be asked for one; *)
Theorem C106_refuted : exists k l l' es es',
  k_client k = "srv" /\ bt_run k l = Some (BExited 0, es) /\ In (XRemote (QPrepare rm_c false)) es /\
  In (XRemote (QReturn true)) es /\ ~ In (XRemote QCtrlC) es /\
  bt_run k l' = Some (BExited 0, es') /\ (forall id c, ~ In (XRemote (QStage id c)) es') /\ ~ In (XRemote QCtrlC) es'.
Proof.
  exists (bt_cmd "srv" []), [DStart; DRemote (ABoot OK (Some ("id1", rm_c))); DRemote (AOutcome true); DRemote (AOutcome true);
    DRemote (AOutcome false); DRemote (AAnswer OK); DReturn], [DStart; DRemote (ABoot Failed None); DReturn].
  do 2 eexists. split; [reflexivity|]. split; [vm_compute; reflexivity|].
  split; [cbn; auto 10|]. split; [cbn; auto 10|]. split; [cbn; intuition discriminate|].
  split; [vm_compute; reflexivity|]. cbn. intuition discriminate.
Qed.
(** and after CTRL-C it is 0 although a stage was cut off and another not run at all. *)
Theorem C106_refuted_ctrl_c : exists l es,
  bt_run (bt_cmd "" ["a.yaml"; "b.yaml"]) l = Some (BExited 0, es) /\
  In (XServe (EAbort 0)) es /\ ~ In (XServe (EEnd 0)) es /\ forall e, In (XServe e) es -> stage_of e <> Some 1.
Proof.
  exists [DStart; bt_step; bt_step; DCtrlC; DServe (AServer true); bt_step; DReturn]. eexists.
  split; [vm_compute; reflexivity|]. cbn. split; [auto 10|]. split; [intuition discriminate|].
  intros e He. repeat (destruct He as [He|He]; [inv He; discriminate|]). destruct He.
Qed.

(** Server.Run hangs; CTRL-C ends the program nevertheless, forcibly. *)
Example C107_example : exists c,
  bt_run (bt_cmd "" ["d.yaml"; "a.yaml"]) [DStart; bt_step; bt_step; DCtrlC; DCtrlC; DForce] = Some (BExited 1,
    map XServe [EDir 0 "dir of /w/d.yaml"; EPrepare 0 c "dir of /w/d.yaml" true; ECancel] ++ [XExit 1]).
Proof. eexists. vm_compute. reflexivity. Qed.
(** C107_stage is as strong as it can be: with CTRL-C between two stages the second is begun, and even run. *)
Example C107_example_next : exists es s,
  bt_run (bt_cmd "" ["a.yaml"; "b.yaml"]) ([DStart] ++ bt_local 0 ++ [DCtrlC] ++ [bt_step; bt_step; bt_step; bt_step]) = Some (s, es) /\
  exists a b, es = a ++ XServe ECancel :: b /\ In (XServe (EEnd 0)) a /\ In (XServe (ERun 1)) b.
Proof.
  do 2 eexists. split; [vm_compute; reflexivity|].
  match goal with |- exists a b, ?es = _ /\ _ => exists (firstn 8 es), (skipn 9 es) end.
  split; [reflexivity|]. split; cbn; auto 10.
Qed.
Print Assumptions C105_valid.
Print Assumptions C105_prepare.
Print Assumptions C105_stages.
Print Assumptions C105_nothing.
Print Assumptions C105_help.
Print Assumptions C105_client.
Print Assumptions C106_zero_partial.
Print Assumptions C106_nonzero.
Print Assumptions C106_last.
Print Assumptions C107_stage.
Print Assumptions C107_ends.
Print Assumptions C106_refuted.
Print Assumptions C106_refuted_ctrl_c.
