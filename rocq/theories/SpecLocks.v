(** * Which queries want access to a component *)
From Verif Require Export SpecQuery.

(** Opening a query with the call [o] in the world [w] asks for [f].  A static query with a type
    that was never registered asks for nothing. *)
Definition requests (w : world) (o : sop) (f : fetch) : Prop :=
  match o with
  | SOpenDyn fs => f ∈ fs
  | SOpenStat ps => ¬ unregistered w ps ∧ ∃ p, p ∈ ps ∧ asks w p f
  | _ => False
  end.
