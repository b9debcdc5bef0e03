(** The sea does not depend on how it was imported. *)
From Coq Require Import List Permutation.
From Verif Require Import Base BaseProof ModelTile SpecTile ModelCodec ModelGeom SpecGeom ModelFeature SpecFeature ModelBqTree SpecBqTree ModelMvt SpecMvt ModelRender SpecRender ModelClip SpecClip ModelDrain SpecDrain ModelCoast SpecCoast ModelDict ModelOsm SpecOsm SpecPacker ModelServer ModelImport SpecImport SpecSame ProofSame.
From Verif Require PropImport ProofDrain ProofCoastEx.
Import ListNotations.
Open Scope N_scope.

Lemma outcome_same {G D Z} (proc : G -> list (out G D Z)) os l m : outcome proc os l -> outcome proc os m -> Permutation l m.
Proof.
  intros (a & F1 & P1) (b & F2 & P2). rewrite P1, P2. replace b with a; [apply Permutation_refl|]. clear P1 P2. revert b F2. induction F1 as [|o x os a H F IH]; intros b F2; inversion F2 as [|? y ? b' H2 F2']; subst; [reflexivity|].
  f_equal; [exact (ProofCoastEx.gives_det proc _ _ H _ H2) | now apply IH].
Qed.
Definition lefts {A B} (l : list (A + B)) : list A := flat_map (fun x => match x with inl a => [a] | inr _ => [] end) l.
Definition rights {A B} (l : list (A + B)) : list B := flat_map (fun x => match x with inl _ => [] | inr b => [b] end) l.
Lemma flat_map_perm {A B} (f : A -> list B) l m : Permutation l m -> Permutation (flat_map f l) (flat_map f m).
Proof.
  induction 1 as [|x l m _ IH|x y l|l m n _ IH1 _ IH2]; cbn [flat_map].
  - constructor.
  - now apply Permutation_app_head.
  - rewrite !app_assoc. apply Permutation_app_tail, Permutation_app_comm.
  - exact (perm_trans IH1 IH2).
Qed.
Lemma lefts_app {A B} (a : list A) (b : list B) : lefts (map inl a ++ map inr b) = a.
Proof. unfold lefts. rewrite flat_map_app. replace (flat_map _ (map inr b)) with (@nil A) by (induction b; auto). rewrite app_nil_r. induction a as [|x a IH]; [reflexivity|]. cbn [map flat_map app]. now rewrite IH. Qed.
Lemma rights_app {A B} (a : list A) (b : list B) : rights (map inl a ++ map inr b) = b.
Proof. unfold rights. rewrite flat_map_app. replace (flat_map _ (map inl a)) with (@nil B) by (induction a; auto). cbn [app]. induction b as [|x b IH]; [reflexivity|]. cbn [map flat_map app]. now rewrite IH. Qed.
Theorem coast_same L1 L2 polys s1 s2 : same_coast L1 L2 -> coast_result L1 polys s1 -> coast_result L2 polys s2 ->
  Permutation (c_inserted s1) (c_inserted s2) /\ Permutation (c_sea s1) (c_sea s2).
Proof.
  intros (E1 & E2 & E3) (R1 & X1 & _) (R2 & X2 & _). rewrite <- E1, <- E2, <- E3 in R2.
  destruct (ProofDrain.coast_drained _ _ _ _ R1 X1) as (_ & _ & _ & O1). destruct (ProofDrain.coast_drained _ _ _ _ R2 X2) as (_ & _ & _ & O2).
  pose proof (outcome_same _ _ _ _ O1 O2) as HP. split.
  - apply (flat_map_perm (fun x => match x with inl a => [a] | inr _ => [] end)) in HP. unfold lefts in *. pose proof (lefts_app (c_inserted s1) (c_sea s1)) as A1. pose proof (lefts_app (c_inserted s2) (c_sea s2)) as A2. unfold lefts in A1, A2. now rewrite A1, A2 in HP.
  - apply (flat_map_perm (fun x => match x with inl _ => [] | inr b => [b] end)) in HP. pose proof (rights_app (c_inserted s1) (c_sea s1)) as A1. pose proof (rights_app (c_inserted s2) (c_sea s2)) as A2. unfold rights in A1, A2. now rewrite A1, A2 in HP.
Qed.
Lemma both L1 L2 st1 st2 t P1 P2 (Q : list vlayer -> list vlayer -> Prop) : answers_with L1 st1 t P1 -> answers_with L2 st2 t P2 -> (forall a b, P1 a -> P2 b -> Q a b) -> both_answer L1 L2 st1 st2 t Q.
Proof.
  intros (b1 & z1 & S1 & D1 & B1) (b2 & z2 & S2 & D2 & B2) H. exists b1, z1, b2, z2. split; [exact S1|]. split; [exact D1|]. split; [exact S2|]. split; [exact D2|]. intros Q1 Q2.
  destruct (B1 Q1) as (v1 & V1 & W1). destruct (B2 Q2) as (v2 & V2 & W2). exists v1, v2. auto.
Qed.
Lemma covered_perm s1 s2 t : Permutation s1 s2 -> covered s1 t -> covered s2 t.
Proof. intros HP H. unfold covered in *. destruct H as (e & H1 & H2). exists e. split; [exact (Permutation_in e HP H1) | exact H2]. Qed.
Lemma maximal_perm s1 s2 e : Permutation s1 s2 -> maximal s1 e -> maximal s2 e.
Proof. intros HP. unfold maximal. intros (H1 & H2). split; [exact (Permutation_in e HP H1)|]. intros y Hy. apply H2. exact (Permutation_in y (Permutation_sym HP) Hy). Qed.

Theorem sea_same L1 L2 j1 j2 fe1 fe2 raw prep1 prep2 st1 st2 : same_results L1 L2 -> same_coast L1 L2 -> libs_ok L1 -> libs_ok L2 -> job_ok L1 j1 -> job_ok L2 j2 ->
  history L1 j1 true fe1 raw prep1 st1 -> history L2 j2 true fe2 raw prep2 st2 -> j_polys j1 = j_polys j2 ->
  exists s, coast_result L1 (j_polys j1) s /\
  (forall t k, tz t <= 20 -> valid_tile t -> covered (c_sea s) t -> tile_to_key t 0 = Ok k ->
    both_answer L1 L2 st1 st2 t (fun vls1 vls2 => exists v1 v2, drawn_in vls1 coastline k 3 v1 /\ drawn_in vls2 coastline k 3 v2 /\ is_sea k (tz t) v1 /\ is_sea k (tz t) v2)) /\
  (forall t e f g' k, tz t <= 20 -> valid_tile t -> In (e, f) (c_inserted s) -> no_coast_areas L1 j1 fe1 -> no_coast_areas L2 j2 fe2 ->
    related e t -> touches (bounding_box (f_geom f)) (tile_area t) -> tile_to_key e 0 = Ok k ->
    clip (l_cut L1) (draw_area t) (outline L1 raw (tz t) (f_geom f)) = Ok g' -> shift_geom (tz t) g' <> GNull ->
    both_answer L1 L2 st1 st2 t (fun vls1 vls2 => exists vl1 v1 vl2 v2, In vl1 vls1 /\ In v1 (vl_features vl1) /\ vl_name vl1 = coastline /\ v_id v1 = k /\
      In vl2 vls2 /\ In v2 (vl_features vl2) /\ vl_name vl2 = coastline /\ same_feature v1 v2)).
Proof.
  intros HS HC HL1 HL2 HJ1 HJ2 HH1 HH2 EP.
  destruct (PropImport.c63_sea_shown L1 j1 fe1 raw prep1 st1 HL1 HJ1 HH1) as (s1 & R1 & A1 & _ & C1). destruct (PropImport.c63_sea_shown L2 j2 fe2 raw prep2 st2 HL2 HJ2 HH2) as (s2 & R2 & A2 & _ & C2).
  rewrite <- EP in R2. destruct (coast_same _ _ _ _ _ HC R1 R2) as [PI PS]. exists s1. split; [exact R1|]. split.
  - intros t k Hz Hv Hcv Hk. refine (both _ _ _ _ _ _ _ _ (A1 t k Hz Hv Hcv Hk) (A2 t k Hz Hv (covered_perm _ _ _ PS Hcv) Hk) _).
    intros a b (vl1 & v1 & X1 & X2 & X3 & X4) (vl2 & v2 & Y1 & Y2 & Y3 & Y4). exists v1, v2.
    assert (K : forall v, is_sea k (tz t) v -> v_id v = k /\ vkind (v_geom v) = 3) by (intros v (i & _ & ->); split; reflexivity).
    destruct (K _ X4) as [K1 K2]. destruct (K _ Y4) as [K3 K4]. split; [exists vl1; auto|]. split; [exists vl2; auto|]. split; assumption.
  - intros t e f g' k Hz Hv Hi N1 N2 Hr Ht Hk Hg Hn. assert (Hg2 := Hg). rewrite (same_outline _ _ _ _ _ HS), (same_cut _ _ HS) in Hg2.
    refine (both _ _ _ _ _ _ _ _ (C1 t e f g' Hz Hv Hi N1 Hr Ht Hg Hn) (C2 t e f g' Hz Hv (Permutation_in _ PI Hi) N2 Hr Ht Hg2 Hn) _).
    intros a b (vl1 & v1 & X1 & X2 & X3 & X4 & X5 & X6) (vl2 & v2 & Y1 & Y2 & Y3 & Y4 & Y5 & Y6). exists vl1, v1, vl2, v2. split; [exact X1|]. split; [exact X2|]. split; [exact X3|].
    split; [congruence|]. split; [exact Y1|]. split; [exact Y2|]. split; [exact Y3|]. split; [congruence|]. split; [congruence|]. rewrite X5, Y5. apply Permutation_refl.
Qed.
