(* Model of the lab status file and the working-directory lock: netsim/utils/status.py,
   netsim/cli/__init__.py, up.py, down.py, status.py. Definitions only.
   Not modelled: dry-run mode, the content of the status texts, the tools and the initial
   configuration, the time (the current time is text, and whether the previous log entry is
   old enough is an input). *)
From Coq Require Import String Ascii ZArith Bool List.
From Verif Require Import Base Mod_Model.
Import ListNotations.
Local Open Scope string_scope.
Local Open Scope list_scope.

(* ---- the status file: one entry per lab instance ---- *)

Record entry := mk_entry {
  e_dir : string;
  e_providers : list string;
  e_status : option string;
  e_log : list string
}.

Record update := mk_update {
  u_status : option string;            (* 'status' *)
  u_log_line : option string;          (* 'log_line' *)
  u_reset : bool                       (* 'providers': [] *)
}.

(* cli/__init__.py:338-345 the log: [old] - there is no timestamp, or it is more than 15 seconds old *)
Definition log_append (now : string) (old : bool) (line : string) (log : list string) : list string :=
  if (match log with [] => true | _ => false end)
     || negb (contains (": " ++ line)%string (last log EmptyString)) || old
  then log ++ [(now ++ ": " ++ line)%string]
  else log.

(* cli/__init__.py:306-350 lab_status_update; [prov] is the callback appending a provider *)
Definition lab_status_update (cwd id now : string) (old : bool) (u : option update) (prov : option string)
  (reg : dict entry) : dict entry :=
  let e := match dget id reg with Some e => e | None => mk_entry cwd [] None [] end in
  let e := match u with
           | None => e
           | Some u =>
               let e := mk_entry (e_dir e) (if u_reset u then [] else e_providers e)
                          (match u_status u with Some x => Some x | None => e_status e end) (e_log e) in
               match (match u_status u with Some x => Some x | None => u_log_line u end) with
               | Some line => mk_entry (e_dir e) (e_providers e) (e_status e) (log_append now old line (e_log e))
               | None => e
               end
           end in
  let e := match prov with
           | Some p => mk_entry (e_dir e) (e_providers e ++ [p]) (e_status e) (e_log e)
           | None => e
           end in
  dset id e reg.

(* cli/__init__.py:355-364 lab_status_change *)
Definition lab_status_change (cwd id now : string) (old : bool) (text : string) : dict entry -> dict entry :=
  lab_status_update cwd id now old (Some (mk_update (Some text) None false)) None.

(* up.py:101-114 lab_status_start: new registry, directory of the conflicting lab *)
Definition lab_status_start (cwd id now : string) (old : bool) (reg : dict entry) : dict entry * option string :=
  match dget id reg with
  | Some e =>
      if negb (String.eqb (e_dir e) cwd) then
        (lab_status_change cwd id now old ("conflict -- trying to start lab in " ++ cwd)%string reg, Some (e_dir e))
      else
        (lab_status_update cwd id now old (Some (mk_update (Some "restarting lab") None true)) None reg, None)
  | None => (lab_status_update cwd id now old (Some (mk_update (Some "starting lab") None true)) None reg, None)
  end.

(* up.py:121-127 status_start_provider *)
Definition status_start_provider (cwd id now : string) (old : bool) (p : string) : dict entry -> dict entry :=
  lab_status_update cwd id now old (Some (mk_update (Some ("starting provider " ++ p)%string) None false)) (Some p).

(* status.py:83-88 remove_lab_status *)
Definition remove_lab_status (id : string) (reg : dict entry) : dict entry := dpop id reg.

(* ---- status.py:37-67 change_status: lock, read, change, truncate, write, unlock ---- *)

Section Updates.
Variable A : Type.                       (* content of the status file *)
Variable empty : A.
Variable upd : nat -> A -> option A.     (* the callback of process p; None when it fails *)

Inductive file := Missing | Good (a : A) | Torn.

Inductive phase :=
| Waiting                                (* before lock.acquire *)
| Locked                                 (* lock held *)
| HaveRead (a : A)                       (* status changed in memory *)
| Opened (a : A)                         (* file opened for writing, and truncated *)
| Written                                (* file written, lock still held *)
| Complete
| Failed                                 (* log.fatal: no lock within three seconds, unreadable file, error in the callback *)
| Crashed.

Record fstate := mk_fstate { f_file : file; f_lock : option nat; f_phase : nat -> phase }.

Inductive fevent :=
| Acquire (p : nat) | Timeout (p : nat) | Read (p : nat) | Open (p : nat) | Write (p : nat) | Release (p : nat)
| Kill (p : nat)
| Reset.                                 (* status.py(cli) reset_lab_status: os.remove without locking *)

Definition set_phase (p : nat) (x : phase) (f : nat -> phase) : nat -> phase :=
  fun q => if Nat.eqb q p then x else f q.

(* the lock is released by the operating system when the process dies *)
Definition drop_lock (p : nat) (l : option nat) : option nat :=
  match l with Some q => if Nat.eqb q p then None else l | None => None end.

Definition fstep (s : fstate) (e : fevent) : option fstate :=
  match e with
  | Acquire p =>
      match f_phase s p, f_lock s with
      | Waiting, None => Some (mk_fstate (f_file s) (Some p) (set_phase p Locked (f_phase s)))
      | _, _ => None
      end
  | Timeout p =>
      match f_phase s p with
      | Waiting => Some (mk_fstate (f_file s) (f_lock s) (set_phase p Failed (f_phase s)))
      | _ => None
      end
  | Read p =>
      match f_phase s p with
      | Locked =>
          let a := match f_file s with Missing => Some empty | Good a => Some a | Torn => None end in
          match (match a with Some a => upd p a | None => None end) with
          | Some a' => Some (mk_fstate (f_file s) (f_lock s) (set_phase p (HaveRead a') (f_phase s)))
          | None => Some (mk_fstate (f_file s) (drop_lock p (f_lock s)) (set_phase p Failed (f_phase s)))
          end
      | _ => None
      end
  | Open p =>
      match f_phase s p with
      | HaveRead a => Some (mk_fstate Torn (f_lock s) (set_phase p (Opened a) (f_phase s)))
      | _ => None
      end
  | Write p =>
      match f_phase s p with
      | Opened a => Some (mk_fstate (Good a) (f_lock s) (set_phase p Written (f_phase s)))
      | _ => None
      end
  | Release p =>
      match f_phase s p with
      | Written => Some (mk_fstate (f_file s) (drop_lock p (f_lock s)) (set_phase p Complete (f_phase s)))
      | _ => None
      end
  | Kill p =>
      match f_phase s p with
      | Complete | Failed | Crashed => None
      | _ => Some (mk_fstate (f_file s) (drop_lock p (f_lock s)) (set_phase p Crashed (f_phase s)))
      end
  | Reset => Some (mk_fstate Missing (f_lock s) (f_phase s))
  end.

Fixpoint frun (s : fstate) (tr : list fevent) : option fstate :=
  match tr with
  | [] => Some s
  | e :: r => match fstep s e with Some s' => frun s' r | None => None end
  end.

Definition finit (f : file) : fstate := mk_fstate f None (fun _ => Waiting).
End Updates.

Arguments Missing {A}. Arguments Good {A}. Arguments Torn {A}.
Arguments Waiting {A}. Arguments Locked {A}. Arguments HaveRead {A}. Arguments Opened {A}.
Arguments Written {A}. Arguments Complete {A}. Arguments Failed {A}. Arguments Crashed {A}.
Arguments f_file {A}. Arguments f_lock {A}. Arguments f_phase {A}.

(* ---- netlab up and netlab down; the status file is changed in single steps ---- *)

Inductive kind :=
| Up (snapshot : bool) (id : string)     (* the lab id of the topology is used without --snapshot *)
| Down (force : nat).

Record proc := mk_proc { p_kind : kind; p_dir : string }.

Inductive pc :=
| UStart | UChecked | UTopo (id : string) | UInstance (id : string) | URegistered (id : string)
| ULocked (id : string) | UStarting (id : string) | URunning (id : string)
| DStart | DChecked (id : string) (mismatch : bool) | DRequested (id : string) (mismatch : bool)
| DStopped (id : string) (mismatch : bool) | DRemoved (id : string)
| Done | Aborted | Dead.

Record state := mk_state {
  s_reg : dict entry;                    (* the status file *)
  s_lock : dict unit;                    (* directories with netlab.lock *)
  s_snap : dict string;                  (* directory -> lab id in netlab.snapshot.yml *)
  s_run : list (string * string);        (* workloads: lab id, directory *)
  s_pc : nat -> pc
}.

(* what happens outside of the model: success, another round, or failure; the time *)
Inductive choice := Go | Again | Fail.
Inductive event := Step (p : nat) (c : choice) (now : string) (old : bool) | Crash (p : nat).

Definition set_pc (p : nat) (x : pc) (f : nat -> pc) : nat -> pc := fun q => if Nat.eqb q p then x else f q.

Definition goto (s : state) (p : nat) (x : pc) : state :=
  mk_state (s_reg s) (s_lock s) (s_snap s) (s_run s) (set_pc p x (s_pc s)).
Definition with_reg (s : state) (r : dict entry) : state :=
  mk_state r (s_lock s) (s_snap s) (s_run s) (s_pc s).

Definition other_dir (d id : string) (reg : dict entry) : bool :=
  match dget id reg with Some e => negb (String.eqb (e_dir e) d) | None => false end.

Definition locked (d : string) (s : state) : bool := dmem d (s_lock s).

(* remove workloads of a lab in a directory *)
Definition stop_run (id d : string) (l : list (string * string)) : list (string * string) :=
  filter (fun x => negb (String.eqb (fst x) id && String.eqb (snd x) d)) l.

Section Processes.
Variable P : nat -> proc.

Definition up_step (snapshot : bool) (id0 d : string) (p : nat) (c : choice) (now : string) (old : bool) (s : state) : option state :=
  match s_pc s p with
  | UStart =>                            (* up.py:303-304, 132-147 check_existing_lab *)
      Some (goto s p (if negb snapshot && locked d s then Aborted else UChecked))
  | UChecked =>                          (* up.py:76-90 get_topology; outputs/__init__.py:22-26 *)
      if snapshot then
        Some (goto s p (match dget d (s_snap s) with Some id => UTopo id | None => Aborted end))
      else if locked d s then Some (goto s p Aborted)
      else Some (mk_state (s_reg s) (s_lock s) (dset d id0 (s_snap s)) (s_run s) (set_pc p (UTopo id0) (s_pc s)))
  | UTopo id =>                          (* up.py:152-176 check_lab_instance *)
      Some (goto s p (if other_dir d id (s_reg s) then Aborted else UInstance id))
  | UInstance id =>
      match c with
      | Fail => Some (goto s p Aborted)  (* up.py:314-323 probes and images *)
      | _ =>                             (* up.py:325-327 status_start_lab *)
          let '(reg, conflict) := lab_status_start d id now old (s_reg s) in
          Some (goto (with_reg s reg) p (match conflict with Some _ => Aborted | None => URegistered id end))
      end
  | URegistered id =>                    (* up.py:329-330, status.py:96-103 lock_directory *)
      Some (mk_state (s_reg s) (dset d tt (s_lock s)) (s_snap s) (s_run s) (set_pc p (ULocked id) (s_pc s)))
  | ULocked id =>                        (* up.py:199 *)
      Some (goto (with_reg s (status_start_provider d id now old "provider" (s_reg s))) p (UStarting id))
  | UStarting id =>                      (* up.py:200-211: a failed start may leave workloads behind *)
      Some (mk_state (s_reg s) (s_lock s) (s_snap s) ((id, d) :: s_run s)
                     (set_pc p (match c with Fail => Aborted | _ => URunning id end) (s_pc s)))
  | URunning id =>                       (* up.py:215, 335-338, 340-349 *)
      match c with
      | Again => Some (goto (with_reg s (status_start_provider d id now old "provider" (s_reg s))) p (UStarting id))
      | Fail => Some (goto (with_reg s (lab_status_change d id now old "workload started" (s_reg s))) p Aborted)
      | Go => Some (goto (with_reg s (lab_status_change d id now old "started" (s_reg s))) p Done)
      end
  | _ => None
  end.

Definition down_step (force : nat) (d : string) (p : nat) (c : choice) (now : string) (old : bool) (s : state) : option state :=
  match s_pc s p with
  | DStart =>                            (* down.py:174-175, 103-126 lab_dir_mismatch *)
      match dget d (s_snap s) with
      | None => Some (goto s p Aborted)
      | Some id =>
          let m := other_dir d id (s_reg s) in
          match c with
          | Fail => Some (goto s p (if m && (force <? 2)%nat then Aborted else DChecked id m))
          | _ => Some (goto s p (DChecked id m))
          end
      end
  | DChecked id m =>                     (* down.py:179 *)
      Some (goto (with_reg s (lab_status_change d id now old "lab shutdown requested" (s_reg s))) p (DRequested id m))
  | DRequested id m =>                   (* down.py:180-189, 136-167: probes, status changes and provider shutdown *)
      match c with
      | Again => Some (goto (with_reg s (lab_status_change d id now old "stopping provider" (s_reg s))) p (DRequested id m))
      | Go => Some (mk_state (s_reg s) (s_lock s) (s_snap s) (stop_run id d (s_run s)) (set_pc p (DStopped id m) (s_pc s)))
      | Fail => Some (goto s p (if (force =? 0)%nat then Aborted else DStopped id m))
      end
  | DStopped id m =>                     (* down.py:198-199 *)
      Some (goto (if m then s else with_reg s (remove_lab_status id (s_reg s))) p (DRemoved id))
  | DRemoved id =>                       (* down.py:201-202 *)
      Some (mk_state (s_reg s) (dpop d (s_lock s)) (s_snap s) (s_run s) (set_pc p Done (s_pc s)))
  | _ => None
  end.

Definition step (s : state) (e : event) : option state :=
  match e with
  | Step p c now old =>
      match p_kind (P p) with
      | Up snapshot id => up_step snapshot id (p_dir (P p)) p c now old s
      | Down force => down_step force (p_dir (P p)) p c now old s
      end
  | Crash p => Some (goto s p Dead)
  end.

Fixpoint run (s : state) (tr : list event) : option state :=
  match tr with
  | [] => Some s
  | e :: r => match step s e with Some s' => run s' r | None => None end
  end.

Definition start_pc (p : nat) : pc := match p_kind (P p) with Up _ _ => UStart | Down _ => DStart end.
Definition init : state := mk_state [] [] [] [] start_pc.
End Processes.
