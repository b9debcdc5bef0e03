(** A tactic for permutations of concatenations. *)
From Coq Require Import Permutation.
From Verif Require Import Base.

Lemma perm_pull {A} (a b r r2 : list A) : Permutation r (a ++ r2) -> Permutation (b ++ r) (a ++ b ++ r2).
Proof. intros ->. rewrite !app_assoc. apply Permutation_app_tail, Permutation_app_comm. Qed.
Lemma perm_pull_end {A} (a : list A) : Permutation a (a ++ []).
Proof. rewrite app_nil_r. reflexivity. Qed.
Lemma perm_go {A} (a l r r2 : list A) : Permutation r (a ++ r2) -> Permutation l r2 -> Permutation (a ++ l) r.
Proof. intros -> ->. reflexivity. Qed.
Lemma perm_go_end {A} (a r : list A) : Permutation r (a ++ []) -> Permutation a r.
Proof. rewrite app_nil_r. intros ->. reflexivity. Qed.
Lemma cons_app {A} (x : A) (l : list A) : x :: l = [x] ++ l.
Proof. reflexivity. Qed.

Ltac perm_conses := repeat match goal with
  | |- context [?x :: ?l] => lazymatch l with [] => fail | _ => rewrite (cons_app x l) end
  end.
Ltac pull a :=
  lazymatch goal with
  | |- Permutation (a ++ ?r) (a ++ _) => apply Permutation_refl
  | |- Permutation a (a ++ _) => apply perm_pull_end
  | |- Permutation (?b ++ ?r) (a ++ _) => eapply perm_pull; pull a
  end.
Ltac perm_loop :=
  lazymatch goal with
  | |- Permutation ?x ?x => apply Permutation_refl
  | |- Permutation (?a ++ ?l) ?r => eapply perm_go; [pull a|]; perm_loop
  | |- Permutation ?a ?r => apply perm_go_end; pull a
  end.
Ltac perm := rewrite ?map_app, ?flat_map_app; cbn [map flat_map app]; perm_conses; rewrite <- ?app_assoc, ?app_nil_r; perm_loop.
