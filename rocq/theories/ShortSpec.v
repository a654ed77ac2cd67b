(** Specification vocabulary for C86: the shape of a sequence of integers. *)
From Coq Require Import ZArith List.
Import ListNotations.
Open Scope Z_scope.

(** Number of places where an element differs from the one before it. *)
Fixpoint changes (l : list Z) : Z :=
  match l with
  | x :: ((y :: _) as l') => (if x =? y then 0 else 1) + changes l'
  | _ => 0
  end.
(** Each element minus the one before it. *)
Fixpoint differences (l : list Z) : list Z :=
  match l with
  | x :: ((y :: _) as l') => (y - x) :: differences l'
  | _ => []
  end.
