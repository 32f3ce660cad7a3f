(** Model of the reading of controls from a solution found by multiple shooting:
    yaocptool/methods/classic/multipleshooting.py (below: ms). *)
From Verif Require Import Base ExprModel NlpModel SysModel OcpModel DiscModel ShoModel.
Local Open Scope list_scope.

(** ms:641-653: the times of [get_system_at_given_times] when the controls are no decision
    variables.  [controls] is [time_interpolation_controls] (dsb:77-89), the list of the
    control points of every element. *)
Definition control_reading (bps : list Q) (controls : list (list Q)) (n : nat) : res (list (nat * demand)) :=
  res_map (fun el => match at_index controls el IndexError, at_index bps el IndexError, at_index bps (el + 1) IndexError with
                     | Ok ts, Ok a, Ok b => Ok (el, mkDemand a b None None (Some ts) [])
                     | Raise e, _, _ => Raise e
                     | _, Raise e, _ => Raise e
                     | _, _, Raise e => Raise e
                     end) (seq 0 n).
