(** Specification vocabulary for the pack file. *)
From Verif Require Import Base ModelTile ModelPackFile.
Open Scope N_scope.

Definition pf_inv (s : pfile) : Prop := pf_size s <= blen (pf_mem s).

(** the spans [a, a+n) and [b, b+m) have no common position *)
Definition disjoint (a n b m : N) : Prop := a + n <= b \/ b + m <= a.

(** records a user may hold: inside the file *)
Definition inside (s : pfile) (r : pack_record) : Prop :=
  r_off r < pf_size s /\ r_off r + r_size r <= pf_size s.

(** ** Histories *)
(** span written by an operation in state [s] *)
Definition op_span (s : pfile) (o : pf_op) : N * N :=
  match o with
  | OAppend d => (pf_size s, blen d)
  | OInsert off d => (off, blen d)
  | OMove off from => (off, r_size from)
  | OReopen => (pf_size s, 1)
  end.

Definition op_ok (s : pfile) (o : pf_op) : Prop :=
  match o with OMove _ from => r_off from + r_size from <= pf_size s | _ => True end.

(** [pf_safe s os o n]: while running [os] from [s] every operation is legal and
    none writes into [o, o+n) *)
Fixpoint pf_safe (s : pfile) (os : list pf_op) (o n : N) : Prop :=
  match os with
  | [] => True
  | op :: os' =>
      op_ok s op /\ disjoint (fst (op_span s op)) (snd (op_span s op)) o n /\
      forall s' r, pf_step s op = Ok (s', r) -> pf_safe s' os' o n
  end.
