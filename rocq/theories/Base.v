(** Outcomes, byte strings and small list tools shared by all model files.
    Nothing here models repository code except where a comment cites it. *)
From Coq Require Export List ZArith NArith Lia Bool.
From Coq Require Export ZifyBool ZifyNat ZifyN.
Export ListNotations.

(** Outcome of a C++ function: a value, an exception ([utl::verify] failing or
    [throw]), undefined behaviour, or (only for fuelled model functions)
    exhausted fuel.  [UB] and [Fuel] never count as success. *)
Inductive res (A : Type) : Type :=
| Ok (a : A)
| Throw
| UB
| Fuel.
Arguments Ok {A} a.
Arguments Throw {A}.
Arguments UB {A}.
Arguments Fuel {A}.

Definition bind {A B} (r : res A) (f : A -> res B) : res B :=
  match r with Ok a => f a | Throw => Throw | UB => UB | Fuel => Fuel end.

Declare Scope res_scope.
Delimit Scope res_scope with res.
Notation "'do' x <- a ; b" := (bind a (fun x => b))
  (at level 200, x pattern, a at level 100, b at level 200) : res_scope.
Open Scope res_scope.

(** utl::verify(cond, ...): throws iff the condition is false. *)
Definition verify (b : bool) : res unit := if b then Ok tt else Throw.

Definition is_ok {A} (r : res A) : bool := match r with Ok _ => true | _ => false end.

Fixpoint map_res {A B} (f : A -> res B) (l : list A) : res (list B) :=
  match l with
  | [] => Ok []
  | a :: l' => do b <- f a; do bs <- map_res f l'; Ok (b :: bs)
  end.

(** Bytes are numbers below 256; a std::string is a list of bytes. *)
Definition byte := N.
Definition bytes := list N.
Definition is_byte (b : N) : Prop := (b < 256)%N.
Definition bytes_ok (l : bytes) : Prop := Forall is_byte l.

Definition blen (l : bytes) : N := N.of_nat (length l).

(** Sub-string starting at [off] of length [len] (positions as N). *)
Definition slice (l : bytes) (off len : N) : bytes :=
  firstn (N.to_nat len) (skipn (N.to_nat off) l).

(** Little-endian bytes of [v], [n] of them (memcpy of an integer on the
    little-endian machines the project targets). *)
Fixpoint le_bytes (n : nat) (v : N) : bytes :=
  match n with
  | O => []
  | S n' => (v mod 256)%N :: le_bytes n' (v / 256)%N
  end.

Fixpoint le_val (l : bytes) : N :=
  match l with
  | [] => 0%N
  | b :: l' => (b + 256 * le_val l')%N
  end.

Definition bytes_eqb (a b : bytes) : bool :=
  if list_eq_dec N.eq_dec a b then true else false.
