(** Writing into an LMDB table. *)
From Verif Require Import Base ModelTile.
Open Scope N_scope.

(** lmdb::txn::put / lmdb::cursor::put (third party): insert in key order, replacing
    an entry with the same key *)
Fixpoint table_put (t : table) (k : N) (v : bytes) : table :=
  match t with
  | [] => [(k, v)]
  | (k', v') :: t' => if k =? k' then (k, v) :: t' else if k <? k' then (k, v) :: t else (k', v') :: table_put t' k v
  end.
