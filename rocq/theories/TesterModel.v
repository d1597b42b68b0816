(** The tester: model of /repo/apx/tester.py.

    A tester is a client; [connect_tcp], [end], [get] and [set] (16-32) are the
    operations of the client.  Times are rational numbers: what a Python int or a
    finite float stands for.  Infinities and not-a-number are left out. *)
From Verif Require Import Py TypesModel TextModel NodeModel VmModel NodeDataModel ClientModel FloatModel.
Local Open Scope Q_scope.

(** 52 [float(target_time)/float(step_time)] *)
Definition ramp_steps (target_time step_time : Q) : res Q :=
  if huge (rnd target_time) then Err OverflowError
  else if huge (rnd step_time) then Err OverflowError
  else if Qeq_bool (rnd step_time) 0 then Err ZeroDivisionError
  else Ok (rnd (rnd target_time / rnd step_time)).

(** 63-66: the values of the loop; [rnd x] because the first one is an int. *)
Fixpoint ramp_loop (n : nat) (next_value step_size : Q) : list Z :=
  match n with
  | O => []
  | S k =>
    let next_value := rnd (rnd next_value + step_size) in
    nearest_int next_value :: ramp_loop k next_value step_size
  end.

(** 53-68: the values that are set, the last one being the target.  Both branches
    of 53-56 give a positive step for positive times. *)
Definition ramp_values (start_value target_value : Z) (target_steps : Q) : res (list Z) :=
  if (start_value =? target_value)%Z then Ok []
  else
    let diff := if (start_value <? target_value)%Z then (target_value - start_value)%Z
                else (start_value - target_value)%Z in
    if huge (rnd (inject_Z diff)) then Err OverflowError
    else if Qeq_bool target_steps 0 then Err ZeroDivisionError
    else
      let step_size := rnd (rnd (inject_Z diff) / target_steps) in
      if huge target_steps then Err OverflowError        (* int() of an infinity *)
      else
        let n := trunc target_steps in
        Ok ((if (0 <? n)%Z then ramp_loop (Z.to_nat (n - 1)) (inject_Z start_value) step_size else [])
            ++ [target_value]).

(** 26: [time.sleep] wants a number that is not negative. *)
Definition sleep_fails (t : Q) : bool := negb (Qle_bool 0 (rnd (rnd t * rnd (1 # 1000)))).

(** 63-68: sleeping and setting.  [idle]: what the other threads do during each of
    the sleeps. *)
Fixpoint ramp_sets (c : client) (port : nat) (values : list Z) (idle : list (list cev)) : client * pres unit :=
  match values with
  | [] => (c, Done tt)
  | v :: r =>
    let c := fst (client_run c (hd [] idle)) in
    match client_write c (IdPort port) (VInt v) with
    | (c, Done _) => ramp_sets c port r (tl idle)
    | (c, Raised e) => (c, Raised e)
    | (c, Blocked) => (c, Blocked)
    end
  end.

(** 34-68 [ramp] for an identifier that is a text.  Line 50 resolves the type of
    the port once more, which changes nothing for an attached node.  Values that
    are no integers cannot be compared with the target. *)
Definition ramp (c : client) (identifier : str) (target_value : Z) (target_time step_time : Q)
    (idle : list (list cev)) : client * pres unit :=
  match client_find c identifier with
  | None => (c, Raised AssertionError)
  | Some (FType _) => (c, Raised ValueError)
  | Some (FPort port) =>
    if negb (pt_provide (w_ports (c_world c) port)) then (c, Raised ValueError)
    else
      let '(c, r) := client_read c (IdPort port) in
      match r with
      | Raised e => (c, Raised e)
      | Blocked => (c, Blocked)
      | Done start =>
        match (do steps <- ramp_steps target_time step_time;
               match start with
               | Some (OVal (VInt z)) => ramp_values z target_value steps
               | _ => Err TypeError
               end) with
        | Err e => (c, Raised e)
        | Ok [] => (c, Done tt)
        | Ok values =>
          if sleep_fails step_time then (c, Raised ValueError)
          else ramp_sets c port values idle
        end
      end
  end.
