(** Specification vocabulary for the draining of work queues. *)
From Coq Require Import Permutation.
From Verif Require Import Base ModelDrain.
Open Scope N_scope.

(** everything that results from one thing process_coastline does: a task's outcome is
    what its steps result in, recursively *)
Inductive gives {G D Z} (proc : G -> list (out G D Z)) : out G D Z -> list (D + Z) -> Prop :=
| gives_result d : gives proc (OResult d) [inl d]
| gives_sea z : gives proc (OSea z) [inr z]
| gives_task g ls : Forall2 (gives proc) (proc g) ls -> gives proc (OTask g) (concat ls).

(** [l] is, in some order, everything the things [os] result in *)
Definition outcome {G D Z} (proc : G -> list (out G D Z)) (os : list (out G D Z)) (l : list (D + Z)) : Prop :=
  exists ls, Forall2 (gives proc) os ls /\ Permutation l (concat ls).
