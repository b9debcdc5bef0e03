(** C60: what the inserter leaves in the features table and the pack file. *)
From Coq Require Import Permutation.
From Verif Require Import Base BaseProof ModelTile SpecTile ModelPackFile SpecPackFile ModelGeom ModelFeature ModelPack ModelTable ModelRender ModelPrepare
  ModelInserter SpecInserter SpecRepack SpecLayout ProofInserter ProofInserterInv ProofInserterTop ProofLayout PropInserter.
Open Scope N_scope.

(** C60: at every moment of every schedule, so at every crash point: the committed features table
    consists of entries of index tiles; the records of all entries lie inside the pack file and no
    two of them have a byte in common; every record leads to exactly the pack made of its features;
    and the features of an index tile are the old ones followed by some of those inserted for it,
    none twice *)
Theorem c60_layout : forall z upper lower srt T0 s0 db0 n s,
  (forall l, Permutation (srt l) l) -> pf_inv s0 -> laid z T0 s0 db0 -> z <= 20 ->
  ireach z upper lower srt T0 s0 n s -> blen (pf_mem (i_file s)) < 2 ^ 64 ->
  Forall proper (i_calls s) ->
  exists db, laid z (i_table s) (i_file s) db /\
    forall t, index_tile z t -> exists new others, entry_values db t = entry_values db0 t ++ new /\
      Permutation (values_for z t (i_calls s)) (new ++ others).
Proof. exact laid_contents. Qed.
Print Assumptions c60_layout.

(** C60: when the destructor has returned and no call failed, each index tile has the old features and
    then those of all calls that concern it, each exactly once *)
Theorem c60_complete : forall z upper lower srt T0 s0 db0 n s,
  (forall l, Permutation (srt l) l) -> pf_inv s0 -> laid z T0 s0 db0 -> lower <= upper -> z <= 20 ->
  ireach z upper lower srt T0 s0 n s -> destroyed s -> Forall (fun t => ~ failed t) (i_threads s) ->
  blen (pf_mem (i_file s)) < 2 ^ 64 -> Forall proper (i_calls s) ->
  exists db, laid z (i_table s) (i_file s) db /\
    forall t, index_tile z t -> exists new, entry_values db t = entry_values db0 t ++ new /\
      Permutation (values_for z t (i_calls s)) new.
Proof. exact laid_complete. Qed.
Print Assumptions c60_complete.

(** the state of a new database, from which the run [c34_ex] starts *)
Example c60_ex_empty : laid 0 [] pf_empty [] /\ pf_inv pf_empty.
Proof.
  split; [|unfold pf_inv; cbn; lia]. split; [constructor|]. split; [constructor|]. split; [constructor|]. split; constructor.
Qed.
(** and a run that ends with two packs of one entry, side by side *)
Example c60_ex : exists s db, ex_reach s /\ destroyed s /\ i_calls s = map CFeature [ex_a; ex_b; ex_a] /\ laid 0 (i_table s) (i_file s) db /\
  map (fun d => (fst d, map fst (snd d))) db = [(Tile 0 0 0, [Rec 0 113; Rec 113 47])] /\
  entry_values db (Tile 0 0 0) = [ex_val ex_a; ex_val ex_b; ex_val ex_a].
Proof.
  pose proof (ir_init 0 50 10 ex_srt [] pf_empty 2) as R. vm_compute in R.
  call R ex_a. insert_one R.
  step R ltac:(eapply s_check1_low with (t1 := []); vm_compute; discriminate).
  call R ex_b. insert_one R.
  take_one R ([] : list ithread).
  step R ltac:(eapply s_write with (t1 := []); vm_compute; reflexivity).
  step R ltac:(eapply s_commit with (t1 := [])).
  call R ex_a. insert_one R.
  step R ltac:(eapply s_check1_low with (t1 := []); vm_compute; discriminate).
  step R ltac:(eapply s_destroy; repeat constructor).
  take_one R [ITh IIdle 0; ITh IIdle 0].
  step R ltac:(eapply s_write with (t1 := [ITh IIdle 0; ITh IIdle 0]); vm_compute; reflexivity).
  step R ltac:(eapply s_commit with (t1 := [ITh IIdle 0; ITh IIdle 0])).
  match type of R with ireach _ _ _ _ _ _ _ ?st => exists st end.
  exists [(Tile 0 0 0, [(Rec 0 113, [ex_val ex_a; ex_val ex_b]); (Rec 113 47, [ex_val ex_a])])].
  split; [exact R|]. clear R. cbn [i_table i_file i_calls i_threads].
  split; [eexists; split; [right; right; left; reflexivity|reflexivity]|]. split; [reflexivity|]. split; [|split; vm_compute; reflexivity].
  split; [|split; [|split]].
  - apply Forall2_cons; [|apply Forall2_nil]. split; [vm_compute; reflexivity|]. split; [|vm_compute; reflexivity].
    apply Forall_cons; [split; vm_compute; reflexivity|]. apply Forall_cons; [split; vm_compute; reflexivity|]. apply Forall_nil.
  - split; [apply Forall_nil|exact I].
  - apply Forall_cons; [|apply Forall_nil]. split; [repeat split|]. split; [discriminate|].
    apply Forall_cons; [|apply Forall_cons; [|apply Forall_nil]]; cbn [fst snd].
    + exists (match pack_features [ex_val ex_a; ex_val ex_b] with Ok p => p | _ => [] end). split; vm_compute; reflexivity.
    + exists (match pack_features [ex_val ex_a] with Ok p => p | _ => [] end). split; vm_compute; reflexivity.
  - split.
    + apply Forall_cons; [split; vm_compute; [reflexivity|discriminate]|]. apply Forall_cons; [split; vm_compute; [reflexivity|discriminate]|]. apply Forall_nil.
    + apply FOP_cons; [|apply FOP_cons; [apply Forall_nil|apply FOP_nil]]. apply Forall_cons; [|apply Forall_nil]. left. vm_compute. discriminate.
Qed.
