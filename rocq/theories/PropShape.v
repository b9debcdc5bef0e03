(** C47, C53: reading shapefiles. *)
From Verif Require Import Base BaseProof ModelTile ModelCodec ModelGeom ModelShape SpecShape ProofShape.
Open Scope N_scope.

(** C47: a file whose records have one part each is read exactly *)
Theorem c47_single_parts_partial : forall to_fixed unused rest rs,
  file_ok unused rest rs -> Forall (fun r => length (snd r) = 1%nat) rs ->
  read_shapefile to_fixed (shp_file unused rest rs) = Ok (map (fun r => polygon_of to_fixed (snd r)) rs).
Proof.
  intros tf unused rest rs H S1. rewrite read_shapefile_spec by exact H. f_equal. apply map_ext_in. intros r I.
  destruct H as (_ & _ & F & _). pose proof (proj1 (Forall_forall _ _) F r I) as (_ & _ & NP & _).
  pose proof (proj1 (Forall_forall _ _) S1 r I) as L. cbv beta in L. destruct r as [bb parts]. cbn [fst snd] in *. destruct parts as [|part [|? ?]]; try discriminate L.
  rewrite read_as_cons by (exact (Forall_inv NP)). reflexivity.
Qed.
Print Assumptions c47_single_parts_partial.

(** C47: in every file the first ring of each record is exact; every further ring
    has the right number of points, but they are the first points of the record *)
Theorem c47_rings : forall to_fixed unused rest rs, file_ok unused rest rs ->
  exists ps, read_shapefile to_fixed (shp_file unused rest rs) = Ok ps /\
    Forall2 (fun p r => exists part others, snd r = part :: others /\
      fst p = ring_points to_fixed part /\
      snd p = map (fun o => ring_points to_fixed (firstn (length o) (concat (snd r)))) others) ps rs.
Proof.
  intros tf unused rest rs H. eexists. split; [now apply read_shapefile_spec|].
  destruct H as (_ & _ & F & _). clear -F. induction F as [|r rs (_ & NE & NP & _) _ IH]; [constructor|].
  destruct r as [bb parts]. cbn [fst snd map] in *. constructor; [|exact IH]. cbn [snd]. destruct parts as [|part others]; [congruence|]. exists part, others. split; [reflexivity|].
  rewrite read_as_cons by (exact (Forall_inv NP)). split; reflexivity.
Qed.
Print Assumptions c47_rings.

Definition pt_of (a b : N) : shp_point := (le_bytes 8 a, le_bytes 8 b).
Definition shp_example : list (bytes * list (list shp_point)) :=
  [(repeat 0 32, [[pt_of 1 1; pt_of 1 9; pt_of 9 9; pt_of 1 1]; [pt_of 3 3; pt_of 3 4; pt_of 4 4; pt_of 3 3]])].
Definition raw_xy (lat lng : bytes) : pt := (Z.of_N (le_val lng), Z.of_N (le_val lat)).
Lemma shp_example_ok : file_ok (repeat 0 24) (repeat 0 64) shp_example.
Proof.
  split; [reflexivity|]. split; [reflexivity|]. split; [|split; vm_compute; reflexivity].
  apply Forall_cons; [|apply Forall_nil]. split; [reflexivity|]. split; [discriminate|].
  split; [apply Forall_cons; [discriminate|apply Forall_cons; [discriminate|apply Forall_nil]]|].
  split; [|vm_compute; reflexivity].
  apply Forall_cons; [|apply Forall_cons; [|apply Forall_nil]]; repeat (apply Forall_cons; [split; reflexivity|]); apply Forall_nil.
Qed.

(** C47 (finding): rings after the first are not read from their own points *)
Theorem c47_parts_refuted : ~ (forall to_fixed unused rest rs, file_ok unused rest rs ->
  read_shapefile to_fixed (shp_file unused rest rs) = Ok (map (fun r => polygon_of to_fixed (snd r)) rs)).
Proof.
  intros H. specialize (H raw_xy _ _ _ shp_example_ok). vm_compute in H. discriminate H.
Qed.
Print Assumptions c47_parts_refuted.
Example c47_example :
  read_shapefile raw_xy (shp_file (repeat 0 24) (repeat 0 64) shp_example)
    = Ok [([(1,1); (1,9); (9,9); (1,1)], [[(1,1); (1,9); (9,9); (1,1)]])]%Z /\
  let one := [(repeat 0 32, [[pt_of 1 1; pt_of 1 9; pt_of 9 9; pt_of 1 1]]); (repeat 0 32, [[pt_of 5 6]])] in
  read_shapefile raw_xy (shp_file (repeat 0 24) (repeat 0 64) one)
    = Ok [([(1,1); (1,9); (9,9); (1,1)], []); ([(5,6)], [])]%Z.
Proof. split; vm_compute; reflexivity. Qed.

(** C53: reading ends on every buffer *)
Theorem c53_terminates : forall to_fixed buf, read_shapefile to_fixed buf <> Fuel.
Proof.
  intros tf buf H. unfold read_shapefile in H.
  assert (NBI : forall A B (r : res A) (f : A -> res B), r <> Fuel -> (forall a, r = Ok a -> f a <> Fuel) -> bind r f <> Fuel).
  { intros A B r f H1 H2. destruct r; cbn [bind]; try discriminate; [now apply H2|congruence]. }
  revert H. apply NBI; [unfold read_int_big; destruct (_ <=? _); discriminate|]. intros a _.
  apply NBI; [destruct (9994 =? a)%Z; discriminate|]. intros _ _.
  apply NBI; [unfold read_int_little; destruct (_ <=? _); discriminate|]. intros b _.
  apply NBI; [destruct (1000 =? b)%Z; discriminate|]. intros _ _.
  apply NBI; [unfold read_int_little; destruct (_ <=? _); discriminate|]. intros c _.
  apply NBI; [destruct (5 =? c)%Z; discriminate|]. intros _ _.
  apply (read_records_fuel tf buf _ _ _ []); [intros o []|constructor|cbn; lia].
Qed.
Print Assumptions c53_terminates.
(** C53 (finding): a truncated file is not refused but read beyond its end *)
Theorem c53_truncated_refuted : ~ (forall to_fixed unused rest rs cut, file_ok unused rest rs ->
  read_shapefile to_fixed (firstn cut (shp_file unused rest rs)) <> UB).
Proof.
  intros H. apply (H raw_xy _ _ _ 180%nat shp_example_ok). vm_compute. reflexivity.
Qed.
Print Assumptions c53_truncated_refuted.
