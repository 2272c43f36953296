(* Model of netsim/utils/log.py: error and warning logs, checkpoints. Definitions only. *)
From Coq Require Import String Ascii Bool List.
From Verif Require Import Base Text_Model.
Import ListNotations.
Local Open Scope string_scope.
Local Open Scope list_scope.

(* _ERROR_LOG, _WARNING_LOG, _HINTS_CACHE (hints are lists of lines; wrapping is not modelled) *)
Record log_state := mk_log { lg_err : list string; lg_warn : list string; lg_hints : list (list string) }.
Definition log_empty : log_state := mk_log [] [] [].

(* What a program does with the log. *)
Inductive log_op :=
| LReport (category module_ text : string) (data : list string) (hints : option (list string)) (static : list string) (exit : bool)
                                 (* log.error; category "Warning" is a warning; [static] are the lines of a static hint *)
| LFatal (module_ text : string) (* log.fatal *)
| LCheck (max_err : nat)         (* log.exit_on_error *)
| LRepeat (cmd : string)         (* log.repeat_warnings *)
| LAct (what : string).          (* anything that leaves the log alone *)

Definition newline : ascii := "010".
Definition lines_eqb (a b : list string) : bool := if list_eq_dec string_dec a b then true else false.

Definition is_warning (category : string) : bool := String.eqb category "Warning".

(* log.py:157-163: lines added to the error log by print_more_hints *)
Definition hint_lines (warn : bool) (h : list string) : list string :=
  if warn then [] else map (fun l => ("... " ++ l)%string) (filter (fun l => negb (String.eqb l EmptyString)) h).

(* log.py:214: the error line *)
Definition err_line (category module_ text : string) : string :=
  if String.eqb module_ EmptyString then (category ++ ": " ++ text)%string else (category ++ " in " ++ module_ ++ ": " ++ text)%string.

(* log.py:199-285 error: new state and whether the program exits. The branch at 226-228 is dead code: a category is a
   class, so isinstance(category,Warning) is never true. *)
Definition report (quiet : bool) (st : log_state) (category module_ text : string) (data : list string)
  (hints : option (list string)) (static : list string) (exit : bool) : log_state * bool :=
  let warn := is_warning category in
  if (warn && quiet)%bool then (st, false)
  else
    let err1 := if warn then lg_err st else lg_err st ++ split newline (err_line category module_ text) in
    let wrn1 := if warn then lg_warn st ++ split newline (module_ ++ ": " ++ text)%string else lg_warn st in
    let err2 := err1 ++ hint_lines warn data in
    let err3 := match hints with
                | Some h => if existsb (lines_eqb h) (lg_hints st) then err2 else err2 ++ hint_lines warn h
                | None => err2
                end in
    let cache := match hints with Some h => lg_hints st ++ [h] | None => lg_hints st end in
    let err4 := if warn then err3 else err3 ++ static in
    (mk_log err4 wrn1 cache, (exit && negb warn)%bool).

Definition fatal_line (module_ text : string) : string := ("Fatal error in " ++ module_ ++ ": " ++ text)%string.
(* log.py:114-133 fatal *)
Definition fatal (st : log_state) (module_ text : string) : log_state :=
  mk_log (lg_err st ++ split newline (fatal_line module_ text)) (lg_warn st) (lg_hints st).

Definition warn_line (quiet : bool) (st : log_state) (text : string) : log_state :=
  fst (report quiet st "Warning" "" text [] None [] false).

(* One operation; the flag tells that the program ends (sys.exit or ErrorAbort) *)
Definition log_step (quiet : bool) (st : log_state) (op : log_op) : log_state * bool :=
  match op with
  | LReport category m t d h s x => report quiet st category m t d h s x
  | LFatal m t => (fatal st m t, true)
  | LCheck n =>                                                        (* log.py:376-379 *)
      if Nat.ltb n (length (lg_err st)) then (fatal st "netlab" "Cannot proceed beyond this point due to errors, exiting", true) else (st, false)
  | LRepeat cmd =>                                                     (* log.py:385-396 *)
      match lg_warn st with
      | [] => (st, false)
      | ws => (fold_left (warn_line quiet) ws
                 (warn_line quiet st ("The following warnings were generated during the '" ++ cmd ++ "' processing")%string), false)
      end
  | LAct _ => (st, false)
  end.

(* A program: operations up to the one that ends it. Result: state, executed operations, ended prematurely *)
Fixpoint log_run (quiet : bool) (st : log_state) (ops : list log_op) : log_state * list log_op * bool :=
  match ops with
  | [] => (st, [], false)
  | op :: r =>
      let (st1, stop) := log_step quiet st op in
      if stop then (st1, [op], true)
      else let '(st2, done, s) := log_run quiet st1 r in (st2, op :: done, s)
  end.

(* cli/create.py:84-101: after a transformation ([before]) the output modules are executed; [None] is an unknown
   output format, [Some ops] what an output module does *)
Definition create_outputs (outputs : list (option (list log_op))) : list log_op :=
  flat_map (fun o => match o with
                     | Some ops => ops ++ [LCheck 0]
                     | None => [LReport "IncorrectValue" "create" "Unknown output format" [] None [] false]
                     end) outputs.
Definition create_run (before : list log_op) (outputs : list (option (list log_op))) : list log_op :=
  before ++ [LCheck 0] ++ create_outputs outputs.
