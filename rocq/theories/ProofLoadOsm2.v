(** The areas that are handled look like the areas of the file. *)
From Coq Require Import Permutation.
From Coq Require Import List.
From Verif Require Import Base BaseProof ModelTile ModelGeom SpecMvt SpecDict ModelOsm SpecOsm ModelNodeIdx SpecNodeIdx ModelServer ModelImport ModelProfile ModelLoadOsm SpecLoadOsm ProofOsm ProofLoadOsm.
Import ListNotations.

Lemma in_world_valid l : in_world l = valid_loc l.
Proof. unfold in_world, valid_loc. lia. Qed.
Lemma known_ring O ls : known (map (to_loc O) ls) = map (ol_merc O) (filter in_world ls).
Proof.
  induction ls as [|l ls IH]; [reflexivity|]. cbn [map filter]. unfold known in *. cbn [flat_map]. rewrite IH, in_world_valid. unfold to_loc. now destruct (valid_loc l).
Qed.
Lemma items_parts O items (parts : list (list npos * list (list npos))) :
  filter (fun i => match i with ROther => false | _ => true end) items = flat_map (fun p => ROuter (fst p) :: map RInner (snd p)) parts ->
  filter is_ring (map (to_item O) items) = area_items (map (fun p => (map (to_loc O) (fst p), map (map (to_loc O)) (snd p))) parts).
Proof.
  intros H. transitivity (map (to_item O) (filter (fun i => match i with ROther => false | _ => true end) items)).
  - clear H. induction items as [|i items IH]; [reflexivity|]. destruct i; cbn [map filter to_item is_ring]; rewrite IH; reflexivity.
  - rewrite H. clear H. unfold area_items. induction parts as [|[o is] parts IH]; [reflexivity|]. cbn [flat_map map fst snd app]. rewrite map_app, IH. cbn [to_item]. f_equal. f_equal.
    rewrite !map_map. reflexivity.
Qed.
Lemma shape_read O a ps : area_shape O a ps -> read_area (map (to_item O) (snd a)) = Ok (GPoly ps).
Proof.
  intros (parts & Hn & Hf & H2). refine (area_spec _ _ ps _ (items_parts O (snd a) parts Hf) _).
  - now destruct parts.
  - clear Hn Hf. induction H2 as [|[o is] [ro ris] parts ps [[Hc Hl] Hi] H2 IH]; cbn [map]; constructor; [|exact IH]. cbn [fst snd] in *. rewrite known_ring. split; [exact Hc|]. split; [exact Hl|].
    clear - Hi. induction Hi as [|i ri is ris [Hc Hl] Hi IH]; cbn [map]; constructor; [|exact IH]. rewrite known_ring. now split.
Qed.
Lemma area_object_shape O p a ps i : area_shape O a ps -> (area_object O p a i <-> i = (fst a, GPoly ps, pr_area p (fst a))).
Proof.
  intros H. apply shape_read in H. unfold area_object. split.
  - intros (g & Hg & ->). rewrite H in Hg. apply Ok_inj in Hg. now rewrite Hg.
  - intros ->. exists (GPoly ps). now split.
Qed.
Lemma area_handled all O p bufs objs a ps : sorts ModelNodeIdx.query_ltb (ol_sort O) -> file_ok all bufs -> load_objects (arithmetic all) O p bufs = Ok objs ->
  In a (file_areas O bufs) -> area_shape O a ps -> In (fst a, GPoly ps, pr_area p (fst a)) objs.
Proof.
  intros HS HF HL Ha Hp. destruct (loaded_objects all O p bufs HS HF objs HL) as (areas & H2 & HP). apply (Permutation_in _ (Permutation_sym HP)). apply in_or_app. right. apply in_or_app. right.
  clear HP HL. induction H2 as [|b i l l' Hi H2 IH]; [destruct Ha|]. destruct Ha as [->|Ha]; [left; exact (proj1 (area_object_shape O p a ps i Hp) Hi) | right; exact (IH Ha)].
Qed.
