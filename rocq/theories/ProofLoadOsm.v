(** What is handled is what the file says. *)
From Coq Require Import String Ascii Sorted Permutation.
From Coq Require Import List.
From Verif Require Import Base BaseProof ModelTile ModelCodec ModelGeom SpecGeom ModelFeature ModelDict SpecDict ModelOsm SpecOsm ModelNodeIdx SpecNodeIdx ProofNodeIdx ProofNodeBatch ProofRender ProofPackerProps ModelServer ModelImport SpecImport ModelProfile SpecProfile ModelLoadOsm SpecLoadOsm.
From Verif Require PropNodeIdx.
Import ListNotations.
Open Scope N_scope.

Lemma map_res_all {A B} (f : A -> res B) (g : A -> B) l : (forall a, In a l -> f a = Ok (g a)) -> map_res f l = Ok (map g l).
Proof.
  induction l as [|a l IH]; intros H; cbn [map_res map]; [reflexivity|]. rewrite (H a) by (left; reflexivity). cbn [bind]. rewrite IH; [reflexivity|]. intros b Hb. apply H. right. exact Hb.
Qed.
Lemma nodes_of_map bufs : nodes_of bufs = map (fun n => (fst n, node_pos (snd n))) (map (fun n => (o_id (fst n), snd n)) (file_nodes bufs)).
Proof.
  unfold nodes_of, file_nodes. induction (concat bufs) as [|e l IH]; [reflexivity|]. cbn [flat_map]. rewrite IH, !map_app. now destruct e.
Qed.
Lemma position_of bufs id : node_of (nodes_of bufs) id = option_map node_pos (position bufs id).
Proof.
  rewrite nodes_of_map. unfold node_of, position. induction (file_nodes bufs) as [|n l IH]; [reflexivity|]. cbn [map find fst snd]. destruct (Z.abs (o_id (fst n)) =? Z.abs id)%Z; [reflexivity | exact IH].
Qed.
Lemma position_in bufs id l : position bufs id = Some l -> exists o, In (o, l) (file_nodes bufs).
Proof.
  unfold position. destruct (find _ _) as [[o l']|] eqn:E; [|discriminate]. cbn [option_map snd]. intros H. injection H as ->. apply find_some in E. exists o. apply E.
Qed.
Lemma stream_ok all bufs : file_ok all bufs -> valid_stream (2 ^ 62) (nodes_of bufs).
Proof.
  intros [HS HN _ _]. rewrite nodes_of_map. split.
  - apply Forall_forall. intros n Hn. apply in_map_iff in Hn. destruct Hn as (m & <- & Hm). apply in_map_iff in Hm. destruct Hm as (q & <- & Hq). apply (proj1 (Forall_forall _ _) HN) in Hq. cbn beta in Hq. cbn [fst snd].
    destruct Hq as (H1 & [H2 H3] & _). split; [exact H1|]. unfold pos_ok, node_pos, x_offset, y_offset. cbn [fst snd]. lia.
  - apply StronglySorted_Sorted. clear HN. induction HS as [|n l HS IH HF]; cbn [map]; constructor; [exact IH|]. apply Forall_forall. intros x Hx. apply in_map_iff in Hx. destruct Hx as (m & <- & Hm). apply in_map_iff in Hm. destruct Hm as (q & <- & Hq).
    apply (proj1 (Forall_forall _ _) HF) in Hq. left. exact Hq.
Qed.

Section File.
Context (all : bool) (O : osm_libs) (p : profile) (bufs : list buffer).
Context (HS : sorts query_ltb (ol_sort O)) (HF : file_ok all bufs).
Definition place (id : Z) : npos := match position bufs id with Some l => l | None => nowhere end.
Lemma relocated id : relocate_with (arithmetic all) (node_of (nodes_of bufs) id) (undef_coord, undef_coord) = Ok (place id).
Proof.
  rewrite position_of. unfold place. destruct (position bufs id) as [l|] eqn:E.
  - destruct (position_in _ _ _ E) as (o & Hi). apply (proj1 (Forall_forall _ _) (fo_nodes _ _ HF)) in Hi. cbn [fst snd] in Hi. destruct Hi as (_ & [L1 L2] & Hw).
    cbn [option_map]. unfold relocate_with, node_pos, x_offset, y_offset. cbn [fst snd]. unfold arithmetic. destruct all.
    + unfold wsub32. cbn [bind]. destruct l as [x y]. cbn [fst snd] in *. unfold to_i32. f_equal. f_equal; (match goal with |- context [(if ?b then _ else _)] => destruct b eqn:?E1 end); (match goal with |- context [(if ?b then _ else _)] => destruct b eqn:?E2 end); lia.
    + destruct Hw as [Hw|Hw]; [discriminate|]. destruct l as [x y]. cbn [fst snd] in *. rewrite !to_i32_small by lia. unfold sub32.
      replace ((- 2 ^ 31 <=? x + 1800000000 - 1800000000) && (x + 1800000000 - 1800000000 <? 2 ^ 31))%Z with true by lia.
      replace ((- 2 ^ 31 <=? y + 900000000 - 900000000) && (y + 900000000 - 900000000 <? 2 ^ 31))%Z with true by lia. cbn [bind]. f_equal. f_equal; lia.
  - cbn [option_map]. unfold arithmetic. destruct all; reflexivity.
Qed.
Definition filled (e : entity) : entity := match e with EWay o refs => EWay o (map (fun r => (fst r, place (fst r))) refs) | _ => e end.
Lemma written b : write_locations b (map (fun r => place (fst r)) (buffer_refs b)) = map filled b.
Proof.
  unfold buffer_refs. induction b as [|e b IH]; [reflexivity|]. destruct e; cbn [flat_map write_locations map filled app]; [now rewrite IH| |now rewrite IH].
  rewrite map_app. rewrite <- (map_length (fun r : Z * npos => place (fst r)) refs) at 2. rewrite skipn_app, skipn_all, Nat.sub_diag. cbn [skipn app]. rewrite IH. f_equal. f_equal.
  rewrite <- (map_length (fun r : Z * npos => place (fst r)) refs) at 1. rewrite firstn_app, firstn_all, Nat.sub_diag. cbn [firstn]. rewrite app_nil_r.
  clear. induction refs as [|r refs IH]; [reflexivity|]. cbn [map combine]. now rewrite IH.
Qed.
Lemma located_buffer idx dat b : In b bufs -> build_index (nodes_of bufs) = Ok (idx, dat) -> locate (arithmetic all) O idx dat b = Ok (map filled b).
Proof.
  intros Hb HB. assert (HR : Forall (fun r => (-2 ^ 63 < fst r < 2 ^ 63)%Z /\ snd r = (undef_coord, undef_coord)) (buffer_refs b)).
  { apply Forall_forall. intros r Hr. unfold buffer_refs in Hr. apply in_flat_map in Hr. destruct Hr as (e & He & Hr). assert (HE : In e (concat bufs)) by (apply in_concat; exists b; split; assumption).
    apply (proj1 (Forall_forall _ _) (fo_refs _ _ HF)) in HE. destruct e as [| |]; [destruct Hr | now apply (proj1 (Forall_forall _ _) HE) | destruct Hr]. }
  unfold locate. rewrite (update_with_spec _ _ (nodes_of bufs) idx dat); [|exact HS | now apply (stream_ok all) | rewrite nodes_of_map, !map_length; apply (fo_many _ _ HF) | exact HB | eapply Forall_impl; [|exact HR]; cbn beta; tauto].
  rewrite (map_res_all _ (fun r => place (fst r))); [cbn [bind]; now rewrite written|]. intros r Hr. apply (proj1 (Forall_forall _ _) HR) in Hr. cbn beta in Hr. destruct Hr as [_ ->]. apply relocated.
Qed.
Lemma valid_place l o : In (o, l) (file_nodes bufs) -> valid_loc l = true.
Proof. intros Hi. apply (proj1 (Forall_forall _ _) (fo_nodes _ _ HF)) in Hi. cbn [fst snd] in Hi. destruct Hi as (_ & [L1 L2] & _). unfold valid_loc. lia. Qed.
Lemma points_read refs : nodes_to_fixed (map (fun id => to_loc O (place id)) refs) = way_points O bufs refs.
Proof.
  unfold way_points. induction refs as [|id refs IH]; [reflexivity|]. cbn [map flat_map]. unfold place at 1, to_loc at 1. destruct (position bufs id) as [l|] eqn:E.
  - destruct (position_in _ _ _ E) as (o & Hi). rewrite (valid_place _ _ Hi). cbn [nodes_to_fixed app]. now rewrite IH.
  - cbn [nodes_to_fixed app]. exact IH.
Qed.
Lemma handled_entities es : incl es (concat bufs) ->
  Permutation (handled O p (map filled es)) (map (node_object O p) (flat_map (fun e => match e with ENode o l => [(o, l)] | _ => [] end) es) ++ map (way_object O p bufs) (flat_map (fun e => match e with EWay o refs => [(o, map fst refs)] | _ => [] end) es)).
Proof.
  induction es as [|e es IH]; intros Hi; [reflexivity|]. assert (He : In e (concat bufs)) by (apply Hi; left; reflexivity). assert (IH' := IH ltac:(intros x Hx; apply Hi; right; exact Hx)). clear IH.
  unfold handled in *. destruct e; cbn [map filled flat_map app].
  - apply Permutation_cons; [|exact IH']. unfold node_object. cbn [fst snd]. unfold to_loc. rewrite (valid_place l o); [reflexivity|]. unfold file_nodes. apply in_flat_map. exists (ENode o l). split; [exact He | left; reflexivity].
  - rewrite <- Permutation_middle. apply Permutation_cons; [|exact IH']. unfold way_object. cbn [fst snd]. f_equal. f_equal. unfold read_way. rewrite map_map. cbn [fst snd].
    rewrite <- (map_map fst (fun id => to_loc O (place id)) refs). rewrite points_read. now destruct (way_points O bufs (map fst refs)) as [|a [|b l]].
  - exact IH'.
Qed.
Lemma located_ways es : ways_of (map filled es) = map (located bufs) (flat_map (fun e => match e with EWay o refs => [(o, map fst refs)] | _ => [] end) es).
Proof.
  unfold ways_of. induction es as [|e es IH]; [reflexivity|]. destruct e; cbn [map filled flat_map app]; try exact IH. rewrite IH. cbn [map]. f_equal. unfold located. cbn [fst snd]. f_equal. rewrite map_map. reflexivity.
Qed.
Lemma handled_concat (bs : list buffer) : flat_map (handled O p) bs = handled O p (concat bs).
Proof. induction bs as [|b bs IH]; [reflexivity|]. cbn [flat_map concat]. rewrite IH. unfold handled. now rewrite flat_map_app. Qed.
(** what [load_objects] comes to *)
Lemma load_objects_spec : load_objects (arithmetic all) O p bufs =
  do areas <- map_res (handled_area O p) (file_areas O bufs); Ok (handled O p (map filled (concat bufs)) ++ areas).
Proof.
  unfold load_objects. destruct (PropNodeIdx.c38_lookup (nodes_of bufs)) as (idx & dat & HB & _).
  { destruct (stream_ok _ _ HF) as [V1 V2]. split; [|exact V2]. eapply Forall_impl; [|exact V1]. intros n [H1 H2]. split; [lia | exact H2]. }
  rewrite HB. cbn [bind]. rewrite (map_res_all _ (map filled)) by (intros b Hb; now apply located_buffer). cbn [bind]. rewrite <- concat_map, located_ways, handled_concat, <- concat_map. reflexivity.
Qed.
Lemma loaded_objects objs : load_objects (arithmetic all) O p bufs = Ok objs ->
  exists areas, Forall2 (area_object O p) (file_areas O bufs) areas /\ Permutation objs (map (node_object O p) (file_nodes bufs) ++ map (way_object O p bufs) (file_ways bufs) ++ areas).
Proof.
  rewrite load_objects_spec. intros H. apply bind_ok in H as (areas & HA & H). apply Ok_inj in H. subst objs. exists areas. split.
  - apply ProofRender.map_res_Forall2 in HA. eapply ProofPackerProps.Forall2_mono; [|exact HA]. cbn beta. intros a i E. unfold handled_area in E. apply bind_ok in E as (g & Eg & E). apply Ok_inj in E. exists g. split; [exact Eg | now rewrite E].
  - rewrite app_assoc. apply Permutation_app_tail. apply handled_entities. apply incl_refl.
Qed.
Lemma loads_objects : Forall (fun a => exists g, read_area (map (to_item O) (snd a)) = Ok g) (file_areas O bufs) -> exists objs, load_objects (arithmetic all) O p bufs = Ok objs.
Proof.
  intros H. rewrite load_objects_spec. assert (HA : exists areas, map_res (handled_area O p) (file_areas O bufs) = Ok areas).
  { induction H as [|a l (g & Hg) _ (as' & IH)]; [exists []; reflexivity|]. cbn [map_res]. unfold handled_area at 1. rewrite Hg. cbn [bind]. rewrite IH. eexists. reflexivity. }
  destruct HA as (areas & ->). eexists. reflexivity.
Qed.
End File.

Lemma load_buffers all O p bufs bufs' : sorts query_ltb (ol_sort O) -> file_ok all bufs -> concat bufs = concat bufs' -> load_objects (arithmetic all) O p bufs = load_objects (arithmetic all) O p bufs'.
Proof.
  intros HS HF HE. assert (HF' : file_ok all bufs'). { destruct HF as [A B C D]. unfold file_nodes in *. rewrite HE in *. constructor; assumption. }
  rewrite (load_objects_spec all O p bufs HS HF), (load_objects_spec all O p bufs' HS HF'). unfold file_areas, file_ways, file_relations, located, filled, place, position, file_nodes. rewrite HE. reflexivity.
Qed.
