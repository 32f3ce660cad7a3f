(** Specification vocabulary for the helper properties, independent of the
    model's own functions. *)
From Verif Require Import Base UtilModel.

(** The vectors stored under key [i] in a list of optional dictionaries, in the
    order of the list; absent dictionaries and absent keys contribute nothing. *)
Fixpoint values_held {A : Type} (i : nat) (args : list (option (list (nat * list A))))
  : list (list A) :=
  match args with
  | [] => []
  | None :: rest => values_held i rest
  | Some d :: rest =>
      match find (fun kv => Nat.eqb (fst kv) i) d with
      | Some kv => snd kv :: values_held i rest
      | None => values_held i rest
      end
  end.

(** The exception reached after following exactly [n] causes. *)
Inductive cause_chain : nat -> exc_obj -> exc_obj -> Prop :=
| chain_here : forall e, cause_chain 0 e e
| chain_next : forall n b c e, cause_chain n c e -> cause_chain (S n) (ExcObj b (Some c)) e.
