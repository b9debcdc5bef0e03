(** The handlers of the threads of the pipeline: src/osm/load_osm.cc:85-108. *)
From Verif Require Import Base.
Open Scope nat_scope.

(** where a thread is: not in get_handler; about to compare the id in a slot (load_osm.cc:95-99); about to
    draw a number (102); about to write its id (104); using a handler (130, 136); stopped by the exception (103) *)
Inductive hpc := HIdle | HScan (i : nat) | HTake | HWrite (s : nat) | HUse (s : nat) | HThrow.
(** load_osm.cc:88-94: the thread ids beside the handlers (None: the default id), the next number, the threads.
    Reading and writing an id is one step here; in the program these are ordinary (not atomic) memory accesses. *)
Record hst := Hst { h_slots : list (option nat); h_next : nat; h_pc : nat -> hpc }.
Definition hpc_set (f : nat -> hpc) (t : nat) (p : hpc) : nat -> hpc := fun u => if u =? t then p else f u.
Fixpoint slot_set (l : list (option nat)) (i : nat) (x : option nat) : list (option nat) :=
  match l, i with
  | [], _ => []
  | _ :: l', 0 => x :: l'
  | y :: l', S i' => y :: slot_set l' i' x
  end.
(** load_osm.cc:88-94 *)
Definition hst0 (n : nat) : hst := Hst (repeat None n) 0 (fun _ => HIdle).
(** load_osm.cc:94-107, steps of the threads that work for the pipeline *)
Inductive hstep (works : nat -> Prop) : hst -> hst -> Prop :=
| hs_call sl nx pc t : works t -> pc t = HIdle -> hstep works (Hst sl nx pc) (Hst sl nx (hpc_set pc t (HScan 0)))
| hs_other sl nx pc t i x : works t -> pc t = HScan i -> nth_error sl i = Some x -> x <> Some t -> hstep works (Hst sl nx pc) (Hst sl nx (hpc_set pc t (HScan (S i))))
| hs_found sl nx pc t i : works t -> pc t = HScan i -> nth_error sl i = Some (Some t) -> hstep works (Hst sl nx pc) (Hst sl nx (hpc_set pc t (HUse i)))
| hs_end sl nx pc t i : works t -> pc t = HScan i -> nth_error sl i = None -> hstep works (Hst sl nx pc) (Hst sl nx (hpc_set pc t HTake))
| hs_take sl nx pc t : works t -> pc t = HTake -> nx < length sl -> hstep works (Hst sl nx pc) (Hst sl (S nx) (hpc_set pc t (HWrite nx)))
| hs_none sl nx pc t : works t -> pc t = HTake -> length sl <= nx -> hstep works (Hst sl nx pc) (Hst sl (S nx) (hpc_set pc t HThrow))
| hs_write sl nx pc t s : works t -> pc t = HWrite s -> hstep works (Hst sl nx pc) (Hst (slot_set sl s (Some t)) nx (hpc_set pc t (HUse s)))
| hs_done sl nx pc t s : works t -> pc t = HUse s -> hstep works (Hst sl nx pc) (Hst sl nx (hpc_set pc t HIdle)).
Inductive hsteps (works : nat -> Prop) : hst -> hst -> Prop :=
| hs_refl st : hsteps works st st
| hs_next st st' st'' : hsteps works st st' -> hstep works st' st'' -> hsteps works st st''.
Definition hreach (n : nat) (works : nat -> Prop) (st : hst) : Prop := hsteps works (hst0 n) st.
