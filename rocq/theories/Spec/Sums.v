(** Sums of integers over lists. *)
From Coq Require Export ZArith List Permutation.
Export ListNotations.
Open Scope Z_scope.

Fixpoint zsum {A} (f : A -> Z) (l : list A) : Z :=
  match l with [] => 0 | a :: r => f a + zsum f r end.
