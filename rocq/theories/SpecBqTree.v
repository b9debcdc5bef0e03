(** Specification vocabulary for the tree of covered tiles. *)
From Verif Require Import Base ModelTile SpecTile.
Open Scope N_scope.

(** the area of [q] lies in one of the tiles *)
Definition covered (tiles : list tile) (q : tile) : Prop := exists e, In e tiles /\ covers e q.
(** a tile of the list that lies in no other tile of the list *)
Definition maximal (tiles : list tile) (e : tile) : Prop :=
  In e tiles /\ forall e', In e' tiles -> covers e' e -> e' = e.

(** not more than 2^24 tiles lie strictly above an input tile (the tree has no
    more nodes than that, and the node index has 24 bits); true of
    any 729444 tiles up to zoom 23, see c16_when_it_fits *)
Definition tree_fits (tiles : list tile) : Prop :=
  forall l, NoDup l -> (forall t, In t l -> exists e, In e tiles /\ covers t e /\ t <> e) -> N.of_nat (length l) <= 2 ^ 24.
