(* Model of the lab validation tests: netsim/augment/validate.py and netsim/cli/validate.py.
   Definitions only.
   What the lab does is an input: a sequence of observations, one for every attempt to run a test
   on a node, with the clock reading taken just before the attempt, the outcome of the command and
   the outcome of the validation code. The theorems hold for all such sequences.
   The clock counts microseconds. Simplified: show, exec and valid are strings or dictionaries with
   device keys, and only the keys are kept; the plugins are a function telling which action they
   offer for a device. Not modelled: the text of the commands and their Jinja2 expansion, printouts,
   the verbosity levels, --dump, --list, exceptions other than failed validation code, interrupts. *)
From Coq Require Import String Ascii ZArith Bool List.
From Verif Require Import Base Vlink_Model.
Import ListNotations.
Local Open Scope Z_scope.
Local Open Scope string_scope.
Local Open Scope list_scope.

(* ---- test entries ---- *)

Inductive vopt := OAll | ODev (l : list string).      (* a string; a dictionary with device keys *)

Record vtest := mk_vtest {
  v_name : string;
  v_nodes : option (list string);
  v_devices : option (list string);
  v_show : option vopt;
  v_exec : option vopt;
  v_config : bool;
  v_suzieq : option (bool * bool);      (* expect is empty; valid is all *)
  v_plugin : bool;
  v_valid : option vopt;
  v_wait : option Z;
  v_stop : bool;                        (* stop_on_error *)
  v_warn : bool                         (* level is warning *)
}.

Definition given {A} (o : option A) : bool := match o with Some _ => true | None => false end.

Definition nodes_of (e : vtest) : list string := match v_nodes e with Some l => l | None => [] end.

Inductive vte := ENoAction | EActions (l : list string) | ENoNodes | ENoValid | ENoData | ENoDevice.

(* augment/validate.py:38 the actions of a test *)
Definition actions_of (e : vtest) : list string :=
  (if given (v_show e) then ["show"] else []) ++ (if given (v_exec e) then ["exec"] else []) ++
  (if v_config e then ["config"] else []) ++ (if v_plugin e then ["plugin"] else []) ++
  (if given (v_suzieq e) then ["suzieq"] else []).

(* augment/validate.py:19-75 validate_test_entry: the error, if there is one *)
Definition validate_test_entry (e : vtest) : option vte :=
  let x := actions_of e in
  if match x with [] => negb (given (v_wait e)) | _ => false end then Some ENoAction
  else if (Nat.ltb 1 (length x)) &&
          match filter (fun k => negb (memS k ["show"; "exec"])) x with [] => false | _ => true end
  then Some (EActions x)
  else if negb (given (v_suzieq e)) && negb (given (v_wait e)) && negb (given (v_nodes e)) then Some ENoNodes
  else if given (v_show e) && negb (given (v_valid e)) then Some ENoValid
  else if negb (given (v_valid e)) then None
  else if negb (given (v_show e)) && negb (given (v_exec e)) && negb (given (v_suzieq e)) then Some ENoData
  else None.

Definition vkeys (o : option vopt) : list string := match o with Some (ODev l) => l | _ => [] end.

Definition set_devices (e : vtest) (l : list string) : vtest :=
  mk_vtest (v_name e) (v_nodes e) (Some l) (v_show e) (v_exec e) (v_config e) (v_suzieq e) (v_plugin e)
    (v_valid e) (v_wait e) (v_stop e) (v_warn e).

(* augment/validate.py:85-112 calculate_device_support *)
Definition calculate_device_support (e : vtest) : vtest * option vte :=
  if negb (given (v_show e)) && negb (given (v_exec e)) then (e, None)
  else if given (v_devices e) then (e, None)
  else
    let d := vkeys (v_show e) ++ vkeys (v_exec e) in
    let d := match v_valid e with Some (ODev l) => filter (fun x => memS x l) d | _ => d end in
    let d := sorted_set d in
    (set_devices e d, match d with [] => Some ENoDevice | _ => None end).

(* augment/validate.py:122-133 process_validation *)
Definition process_entry (e : vtest) : vtest * option vte :=
  match validate_test_entry e with
  | Some x => (e, Some x)
  | None => calculate_device_support e
  end.

(* ---- counters ---- *)

Record vcnt := mk_cnt { n_passed : nat; n_failed : nat; n_warning : nat; n_count : nat; n_skip : nat }.

(* cli/validate.py:73 TEST_COUNT *)
Definition cnt0 : vcnt := mk_cnt 0 0 0 0 0.

(* cli/validate.py:78-84 increase_fail_count *)
Definition fail1 (e : vtest) (c : vcnt) : vcnt :=
  if v_warn e then mk_cnt (n_passed c) (n_failed c) (S (n_warning c)) (S (n_count c)) (n_skip c)
  else mk_cnt (n_passed c) (S (n_failed c)) (n_warning c) (S (n_count c)) (n_skip c).

(* cli/validate.py:86-89 increase_pass_count *)
Definition pass1 (c : vcnt) : vcnt :=
  mk_cnt (S (n_passed c)) (n_failed c) (n_warning c) (S (n_count c)) (n_skip c).

Definition skip1 (c : vcnt) : vcnt :=
  mk_cnt (n_passed c) (n_failed c) (n_warning c) (n_count c) (S (n_skip c)).

(* ---- observations ---- *)

Inductive ev := EvEmpty | EvTrue | EvFalse.           (* no expression; true; false, None or an exception *)
Inductive pl := PTrue | PFalse | PNone | PSkip.       (* PFalse - false or an exception *)
Inductive sq := QErr | QBox (data : bool) | QList (l : list ev).   (* outcomes of the expression on the records *)

Record obs := mk_obs {
  o_time : Z;             (* time.time() before the attempt *)
  o_show : bool;          (* the show command returned parseable data *)
  o_exec : bool;          (* the command was executed *)
  o_sq : sq;
  o_ev : ev;              (* the expression on the show or exec results, or on a SuzieQ object *)
  o_pl : pl;
  o_config : bool         (* netlab config succeeded *)
}.

Inductive action := AShow | AExec | AConfig | ASuzieq | AWait.

Section Lab.
  Variable dev : string -> string.            (* device of a node *)
  Variable pact : string -> option bool.      (* plugin of a device: Some true - show, Some false - exec *)
  Variable W : nat -> obs.

  Definition usable (d : string) (o : option vopt) : bool :=
    match o with Some OAll => true | Some (ODev l) => memS d l | None => false end.

  (* cli/validate.py:628-648 find_test_action, 311-336 find_plugin_action *)
  Definition find_test_action (e : vtest) (d : string) : option action :=
    if usable d (v_show e) then Some AShow
    else if usable d (v_exec e) then Some AExec
    else if v_config e then Some AConfig
    else if given (v_suzieq e) then Some ASuzieq
    else if v_plugin e then match pact d with Some true => Some AShow | Some false => Some AExec | None => None end
    else if given (v_wait e) && negb (given (v_show e)) && negb (given (v_exec e)) then Some AWait
    else None.

  (* the validation expression of a device: cli/validate.py:412-441 get_entry_value *)
  Definition expr (e : vtest) (d : string) (x : ev) : ev :=
    match v_valid e with Some (ODev l) => if memS d l then x else EvEmpty | _ => x end.

  (* cli/validate.py:699-755 execute_validation_expression *)
  Definition eval_expr (e : vtest) (d : string) (x : ev) (report success : bool) (c : vcnt) : option bool * vcnt :=
    match expr e d x with
    | EvEmpty => (None, skip1 c)
    | EvTrue => (Some true, if success then pass1 c else c)
    | EvFalse => (Some false, if report then fail1 e c else c)
    end.

  (* cli/validate.py:773-786 the records *)
  Fixpoint sq_records (e : vtest) (d : string) (all : bool) (l : list ev) (report : bool)
    (acc : option bool) (c : vcnt) : option bool * vcnt :=
    match l with
    | [] => (acc, c)
    | x :: r =>
        let (ok, c') := eval_expr e d x report false c in
        let acc' :=
          match acc with
          | None => Some (match ok with Some b => b | None => false end)
          | Some a => match ok with
                      | None => Some a
                      | Some b => Some (if all then a && b else a || b)
                      end
          end in
        sq_records e d all r report acc' c'
    end.

  (* cli/validate.py:761-797 execute_suzieq_validation *)
  Definition sq_validation (e : vtest) (d : string) (all : bool) (o : obs) (report : bool) (c : vcnt)
    : option bool * vcnt :=
    let (ok, c') := match o_sq o with
                    | QList l => sq_records e d all l report None c
                    | _ => eval_expr e d (o_ev o) report true c
                    end in
    match ok with
    | None => (None, c')
    | Some false => (Some false, if report then fail1 e c' else c')
    | Some true => (Some true, pass1 c')
    end.

  (* cli/validate.py:809-840 execute_validation_plugin *)
  Definition plugin_validation (e : vtest) (o : obs) (report : bool) (c : vcnt) : option bool * vcnt :=
    match o_pl o with
    | PTrue => (Some true, pass1 c)
    | PFalse => (Some false, if report then fail1 e c else c)
    | PNone => (None, c)
    | PSkip => (None, skip1 c)
    end.

  (* truth value of the SuzieQ results; a failed command returns an object with the _error key *)
  Definition sq_data (q : sq) : bool :=
    match q with QErr => true | QBox b => b | QList l => match l with [] => false | _ => true end end.

  (* cli/validate.py:893-915 validation of the results; [ok] - what is known so far *)
  Definition check_results (e : vtest) (d : string) (o : obs) (a : action) (ok : option bool) (report : bool)
    (c : vcnt) : (bool * option bool) * vcnt :=
    let (ok', c') :=
      if match ok with Some false => false | _ => true end && given (v_valid e) then
        match a, v_suzieq e with
        | ASuzieq, Some (_, all) => sq_validation e d all o report c
        | _, _ => eval_expr e d (o_ev o) report true c
        end
      else if v_plugin e then plugin_validation e o report c
      else (ok, c) in
    match ok' with
    | Some false => if report then ((true, Some false), c') else ((false, None), c')
    | _ => ((true, ok'), c')
    end.

  (* cli/validate.py:845-915 execute_node_validation: (processed, result) and the counters *)
  Definition node_validation (e : vtest) (n : string) (report : bool) (o : obs) (c : vcnt)
    : (bool * option bool) * vcnt :=
    let d := dev n in
    match find_test_action e d with
    | Some AWait => ((true, Some true), c)
    | None => ((true, None), skip1 c)
    | Some AShow =>
        if o_show o then check_results e d o AShow None report c
        else ((true, Some false), fail1 e c)
    | Some AExec =>
        if negb (o_exec o) && report then ((true, Some false), fail1 e c)
        else check_results e d o AExec None report c
    | Some ASuzieq =>
        let empty := match v_suzieq e with Some (b, _) => b | None => false end in
        let ok := xorb (sq_data (o_sq o)) empty in
        if negb ok && report then ((true, Some false), fail1 e c)
        else check_results e d o ASuzieq (Some ok) report c
    | Some AConfig => check_results e d o AConfig None report c
    end.

  (* an attempt: node, number of the observation, whether failures are reported, outcome *)
  Record attempt := mk_att { a_node : string; a_obs : nat; a_report : bool; a_done : bool; a_ok : option bool }.

  (* cli/validate.py:995-1004 one pass over the remaining nodes *)
  Fixpoint one_pass (e : vtest) (stop : Z) (l rem : list string) (ret : option bool) (k : nat) (c : vcnt)
    : list string * option bool * list attempt * nat * vcnt :=
    match l with
    | [] => (rem, ret, [], k, c)
    | n :: r =>
        let report := Z.leb stop (o_time (W k)) in
        let '((proc, ok), c1) := node_validation e n report (W k) c in
        let rem1 := if proc then filter (fun x => negb (String.eqb x n)) rem else rem in
        let ret1 := match ok, ret with
                    | Some true, None => Some true
                    | Some false, _ => Some false
                    | _, _ => ret
                    end in
        let '(rem2, ret2, tr, k2, c2) := one_pass e stop r rem1 ret1 (S k) c1 in
        (rem2, ret2, mk_att n k report proc ok :: tr, k2, c2)
    end.

  (* cli/validate.py:994-1018 the retry loop; None - out of fuel *)
  Fixpoint retry (fuel : nat) (e : vtest) (stop : Z) (rem : list string) (ret : option bool) (k : nat) (c : vcnt)
    : option (option bool * list attempt * nat * vcnt) :=
    match rem with
    | [] => Some (ret, [], k, c)
    | _ =>
        match fuel with
        | O => None
        | S f =>
            let '(rem1, ret1, tr, k1, c1) := one_pass e stop rem rem ret k c in
            match retry f e stop rem1 ret1 k1 c1 with
            | Some (r, tr2, k2, c2) => Some (r, tr ++ tr2, k2, c2)
            | None => None
            end
        end
    end.

  Definition SECOND : Z := 1000000%Z.

  (* cli/validate.py:651-676 wait_before_testing: the numbers of seconds to sleep *)
  Fixpoint sleeps (fuel : nat) (w : Z) : list Z :=
    if Z.ltb w 0 then []
    else match fuel with
         | O => []
         | S f => (if Z.ltb w 5 then w else 5%Z) :: sleeps f (w - 5)%Z
         end.

  Definition wait_before_testing (w : Z) (start : option Z) (now : Z) : list Z :=
    let t := match start with
             | None => w
             | Some s => (- ((now - s - w * SECOND) / SECOND))%Z       (* math.ceil *)
             end in
    sleeps (S (Z.to_nat t)) t.

  Inductive tres := TExit | TRes (r : option bool).

  (* cli/validate.py:952-1029 execute_validation_test: the result, the attempts, the sleeps before the
     test, the next observation, the counters *)
  Definition exec_test (fuel : nat) (nowait : bool) (e : vtest) (start : option Z) (k : nat) (c : vcnt)
    : option (tres * list attempt * list Z * nat * vcnt) :=
    match nodes_of e, v_wait e with
    | [], Some w =>
        if v_stop e && negb (Nat.eqb (n_failed c) 0) then Some (TExit, [], [], k, c)
        else if nowait || Z.eqb w 0 then Some (TRes None, [], [], k, c)
        else Some (TRes None, [], wait_before_testing w start (o_time (W k)), S k, c)
    | [], None => Some (TRes None, [], [], k, skip1 c)
    | _, _ =>
        if v_config e then
          if o_config (W k) then Some (TRes (Some true), [], [], S k, pass1 c)
          else Some (TRes (Some false), [], [], S k, fail1 e c)
        else
          let w := if nowait then 0 else match v_wait e with Some w => w | None => 0 end in
          let stop := o_time (W k) + w * SECOND in
          match retry fuel e stop (nodes_of e) None (S k) c with
          | Some (r, tr, k2, c2) => Some (TRes r, tr, [], k2, c2)
          | None => None
          end
    end.

  Definition set_wait (e : vtest) (w : Z) : vtest :=
    mk_vtest (v_name e) (v_nodes e) (v_devices e) (v_show e) (v_exec e) (v_config e) (v_suzieq e) (v_plugin e)
      (v_valid e) (Some w) (v_stop e) (v_warn e).

  (* cli/validate.py:206-215 the longest delay *)
  Definition max_delay (delays : list Z) : Z := fold_left (fun m d => if Z.ltb m d then d else m) delays 0%Z.

  (* cli/validate.py:205-232 extend_first_wait_time *)
  Fixpoint add_first (m : Z) (l : list vtest) : list vtest :=
    match l with
    | [] => []
    | e :: r => match v_wait e with
                | Some w => if Z.eqb w 0 then e :: add_first m r else set_wait e (w + m) :: r
                | None => e :: add_first m r
                end
    end.

  Definition extend_first (delays : list Z) (l : list vtest) : list vtest :=
    let m := max_delay delays in if Z.eqb m 0 then l else add_first m l.

  (* cli/validate.py:238-251 extend_device_wait_time; [ws name] - netlab_validate.name.wait of the nodes' devices *)
  Definition extend_device (ws : string -> list Z) (e : vtest) : vtest :=
    fold_left (fun e w => if Z.ltb (match v_wait e with Some x => x | None => 0%Z end) w then set_wait e w else e)
      (ws (v_name e)) e.

  (* cli/validate.py:1155 the exit code *)
  Definition exit_code (c : vcnt) : Z :=
    if Nat.eqb (n_failed c) 0 && Nat.eqb (n_warning c) 0 then 0
    else if negb (Nat.eqb (n_failed c) 0) then 1 else 3.

  (* cli/validate.py:1115-1141 the tests; the exit code, the results of the executed tests, the counters *)
  Fixpoint run_tests (fuel : nat) (nowait : bool) (ws : string -> list Z) (l : list vtest) (start : option Z)
    (k : nat) (c : vcnt) : option (Z * list (string * option bool) * vcnt) :=
    match l with
    | [] => Some (exit_code c, [], c)
    | e0 :: r =>
        let e := extend_device ws e0 in
        match exec_test fuel nowait e start k c with
        | None => None
        | Some (TExit, _, _, _, c1) => Some (1, [], c1)
        | Some (TRes res, _, _, k1, c1) =>
            if match res with Some false => v_stop e | _ => false end then Some (1, [(v_name e, res)], c1)
            else
              let '(start1, k2) := match v_wait e with
                                   | Some _ => (Some (o_time (W k1)), S k1)
                                   | None => (start, k1)
                                   end in
              match run_tests fuel nowait ws r start1 k2 c1 with
              | Some (x, rs, c2) => Some (x, (v_name e, res) :: rs, c2)
              | None => None
              end
        end
    end.
End Lab.

(* ---- selection of tests ---- *)

Inductive vse := SNoTest (t : string) | SNoNode (n : string) | SNone.

(* cli/validate.py:1034-1049 filter_by_tests *)
Definition filter_by_tests (names : list string) (l : list vtest) : list vtest * list vse :=
  match names with
  | [] => (l, [])
  | _ =>
      let bad := filter (fun t => negb (existsb (fun e => String.eqb (v_name e) t) l)) names in
      match bad with
      | [] => (filter (fun e => memS (v_name e) names) l, [])
      | _ => (l, map SNoTest bad)
      end
  end.

Definition set_nodes (e : vtest) (l : list string) : vtest :=
  mk_vtest (v_name e) (Some l) (v_devices e) (v_show e) (v_exec e) (v_config e) (v_suzieq e) (v_plugin e)
    (v_valid e) (v_wait e) (v_stop e) (v_warn e).

(* cli/validate.py:1054-1080 filter_by_nodes; [errs] - pending errors *)
Definition filter_by_nodes (all : list string) (nodes : list string) (errs : list vse) (l : list vtest)
  : list vtest * list vse :=
  match nodes with
  | [] => (l, errs)
  | _ =>
      let errs1 := errs ++ map SNoNode (filter (fun n => negb (memS n all)) nodes) in
      match errs1 with
      | _ :: _ => (l, errs1)
      | [] =>
          match filter (fun e => existsb (fun n => memS n nodes) (nodes_of e)) l with
          | [] => ([], [SNone])
          | l1 => (map (fun e => set_nodes e (filter (fun n => memS n nodes) (nodes_of e))) l1, [])
          end
      end
  end.

(* cli/validate.py:1101-1103 the tests to execute, or the errors *)
Definition select_tests (names all nodes : list string) (l : list vtest) : list vtest * list vse :=
  let (l1, e1) := filter_by_tests names l in filter_by_nodes all nodes e1 l1.
