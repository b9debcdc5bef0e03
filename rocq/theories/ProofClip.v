(** Proofs about clipping. *)
From Coq Require Import Permutation.
From Verif Require Import Base BaseProof ModelTile SpecTile ModelPackFile ModelCodec ModelGeom SpecGeom ModelFeature SpecFeature ModelQuadTree SpecQuadTree ModelPack ModelPacker SpecPacker
  ModelBqTree SpecBqTree ProofBqQuery ModelMvt SpecMvt ProofMvt ProofMvtTile ModelRender SpecRender ProofRender ModelCoast SpecCoast ProofCoast ModelClip SpecClip.
Open Scope Z_scope.

(** ** The surveyor's formula *)
Lemma surveyor_cons2 p q r : surveyor (p :: q :: r) = fst p * snd q - fst q * snd p + surveyor (q :: r).
Proof. reflexivity. Qed.
Lemma surveyor_join l a m : surveyor (l ++ a :: m) = surveyor (l ++ [a]) + surveyor (a :: m).
Proof.
  induction l as [|p l IH]; [reflexivity|]. destruct l as [|q l].
  - cbn [app]. rewrite !surveyor_cons2. cbn [surveyor]. lia.
  - change (surveyor (p :: q :: (l ++ a :: m)) = surveyor (p :: q :: (l ++ [a])) + surveyor (a :: m)). rewrite !surveyor_cons2.
    change (surveyor (q :: l ++ a :: m)) with (surveyor ((q :: l) ++ a :: m)). change (surveyor (q :: l ++ [a])) with (surveyor ((q :: l) ++ [a])). lia.
Qed.
Lemma surveyor_rev r : surveyor (rev r) = - surveyor r.
Proof.
  induction r as [|p r IH]; [reflexivity|]. destruct r as [|q r]; [reflexivity|]. rewrite surveyor_cons2. change (rev (p :: q :: r)) with ((rev r ++ [q]) ++ [p]).
  rewrite <- app_assoc. cbn [app]. rewrite surveyor_join. change (rev (q :: r)) with (rev r ++ [q]) in IH. rewrite IH. rewrite surveyor_cons2. cbn [surveyor]. lia.
Qed.
Lemma flat_chain o l a : (forall p q, In p (a :: l) -> In q (a :: l) -> orient o p q = 0) ->
  surveyor (a :: l) = fst o * (snd (last l a) - snd a) - snd o * (fst (last l a) - fst a).
Proof.
  revert a. induction l as [|b l IH]; intros a H; [cbn [surveyor last]; lia|]. rewrite surveyor_cons2, IH; [|intros p q Hp Hq; apply H; right; assumption].
  assert (E : last (b :: l) a = last l b) by (clear; revert a b; induction l as [|c l IH]; intros a b; [reflexivity|]; change (last (b :: c :: l) a) with (last (c :: l) a); rewrite IH; symmetry; apply IH).
  rewrite E. pose proof (H a b (or_introl eq_refl) (or_intror (or_introl eq_refl))) as HO. unfold orient in HO. lia.
Qed.
Lemma flat_no_area l : flat l -> surveyor (path_ring l) = 0.
Proof.
  destruct l as [|p l]; [reflexivity|]. intros H. unfold path_ring. change ((p :: l) ++ [p]) with (p :: (l ++ [p])). rewrite (flat_chain p), last_last; [lia|].
  assert (HI : forall q, In q (p :: l ++ [p]) -> In q (p :: l)) by (intros q [->|Hq]; [left; reflexivity|]; apply in_app_or in Hq as [Hq|[->|[]]]; [right; assumption | left; reflexivity]).
  intros a b Ha Hb. apply H; [left; reflexivity | now apply HI | now apply HI].
Qed.

Lemma ring_path_ring r : closed_ring r -> path_ring (ring_path r) = r /\ ring_path r <> [].
Proof.
  intros (p & q & ->). unfold ring_path. change (p :: q ++ [p]) with ((p :: q) ++ [p]). rewrite removelast_last. split; [reflexivity | discriminate].
Qed.
Lemma path_ring_closed l : l <> [] -> closed_ring (path_ring l).
Proof. destruct l as [|p l]; [contradiction|]. intros _. exists p, l. reflexivity. Qed.
Lemma rev_closed r : closed_ring r -> closed_ring (rev r).
Proof. intros (p & q & ->). exists p, (rev q). cbn [rev]. rewrite rev_app_distr. reflexivity. Qed.
Lemma path_ring_in l p : In p (path_ring l) -> In p l.
Proof. destruct l as [|a l]; [intros []|]. unfold path_ring. intros H. apply in_app_or in H as [H|[->|[]]]; [assumption | left; reflexivity]. Qed.
Lemma ring_path_in r p : In p (ring_path r) -> In p r.
Proof. unfold ring_path. destruct r as [|a r] using rev_ind; [intros []|]. rewrite removelast_last. intros H. apply in_or_app. now left. Qed.
Lemma runs_along_in c r p : runs_along c r -> In p r -> In p c.
Proof. intros [_ [->| ->]] H; [now apply path_ring_in | apply path_ring_in; now apply in_rev]. Qed.
Lemma runs_along_closed c r : runs_along c r -> closed_ring r.
Proof. intros [H [->| ->]]; [|apply rev_closed]; now apply path_ring_closed. Qed.

(** ** Polygons from the solution *)
Definition straight (n : pnode) (p : poly) : Prop :=
  let '(PNode c holes) := n in fst p = path_ring c /\ Forall2 (fun h r => let '(PNode hc _) := h in r = path_ring hc) holes (snd p).
Definition builds (n : pnode) : Prop := Forall (fun c => c <> []) (node_paths n) -> forall acc, exists out ns,
  to_fixed_polygon acc n = Ok (acc ++ out) /\ Permutation ns (solids n) /\ Forall2 straight ns out.
Lemma builds_all ns : Forall builds ns -> Forall (fun c => c <> []) (flat_map node_paths ns) -> forall acc, exists out ms,
  to_fixed_polygons acc ns = Ok (acc ++ out) /\ Permutation ms (flat_map solids ns) /\ Forall2 straight ms out.
Proof.
  induction 1 as [|n ns Hn HF IH]; intros HC acc; cbn [flat_map to_fixed_polygons] in *; [exists [], []; rewrite app_nil_r; repeat split; constructor|].
  apply Forall_app in HC as [HC1 HC2]. destruct (Hn HC1 acc) as (out & ms & E & P & S). rewrite E. cbn [bind]. destruct (IH HC2 (acc ++ out)) as (out' & ms' & E' & P' & S').
  exists (out ++ out'), (ms ++ ms'). rewrite E', app_assoc. split; [reflexivity|]. split; [now apply Permutation_app | now apply Forall2_app].
Qed.
Lemma path_to_ring_some c : c <> [] -> path_to_ring c = Ok (path_ring c).
Proof. destruct c; [contradiction | reflexivity]. Qed.
Lemma builds_every n : builds n /\ match n with PNode _ ns => Forall builds ns end.
Proof.
  induction n as [c ns F] using pnode_induction.
  split; [|eapply Forall_impl; [|exact F]; intros a [H _]; exact H].
  intros HC acc. cbn [node_paths] in HC. apply Forall_cons_iff in HC as [HC1 HC2]. cbn [to_fixed_polygon]. rewrite (path_to_ring_some c HC1). cbn [bind].
  match goal with |- context [bind (?g ns [] acc) _] => set (go := g) end.
  assert (G : forall is ins acc, Forall (fun n => builds n /\ match n with PNode _ ns => Forall builds ns end) is -> Forall (fun c => c <> []) (flat_map node_paths is) ->
    exists out ms rs, go is ins acc = Ok (ins ++ rs, acc ++ out) /\ Forall2 (fun h r => let '(PNode hc _) := h in r = path_ring hc) is rs /\
      Permutation ms (flat_map (fun h => match h with PNode _ ns => flat_map solids ns end) is) /\ Forall2 straight ms out).
  { clear. induction is as [|[ci os] is IH]; intros ins acc F HC; cbn [go].
    - exists [], [], []. rewrite !app_nil_r. repeat split; constructor.
    - apply Forall_cons_iff in F as [[_ Fo] F']. cbn [flat_map node_paths] in HC. apply Forall_cons_iff in HC as [HC1 HC2]. apply Forall_app in HC2 as [HC2 HC3].
      rewrite (path_to_ring_some ci HC1). cbn [bind]. destruct (builds_all os Fo HC2 acc) as (out & ms & E & P & S).
      assert (Ep : (fix all (os : list pnode) (polygon : list poly) {struct os} : res (list poly) :=
           match os with [] => Ok polygon | n :: os' => do polygon0 <- to_fixed_polygon polygon n; all os' polygon0 end) os acc = Ok (acc ++ out)).
      { rewrite <- E. clear. revert acc. induction os as [|n os IH]; intros acc; cbn [to_fixed_polygons]; [reflexivity|].
        destruct (to_fixed_polygon acc n) as [y| | |]; cbn [bind]; [apply IH|reflexivity..]. }
      rewrite Ep. cbn [bind]. destruct (IH (ins ++ [path_ring ci]) (acc ++ out) F' HC3) as (out' & ms' & rs & E' & R' & P' & S'). fold go. rewrite E'.
      exists (out ++ out'), (ms ++ ms'), (path_ring ci :: rs). rewrite <- !app_assoc. cbn [app flat_map]. split; [reflexivity|]. split; [constructor; [reflexivity | assumption]|]. split; [now apply Permutation_app | now apply Forall2_app]. }
  destruct (G ns [] acc F HC2) as (out & ms & rs & E & R & P & S). rewrite E. cbn [bind app]. exists (out ++ [(path_ring c, rs)]), (ms ++ [PNode c ns]). rewrite <- app_assoc. split; [reflexivity|]. split.
  - cbn [solids]. rewrite Permutation_app_comm. cbn [app]. now apply perm_skip.
  - apply Forall2_app; [assumption|]. constructor; [|constructor]. split; [reflexivity | assumption].
Qed.
Lemma solution_polys ns : Forall (fun c => c <> []) (flat_map node_paths ns) -> exists out ms, to_fixed_polygons [] ns = Ok out /\ Permutation ms (flat_map solids ns) /\ Forall2 straight ms out.
Proof. intros H. apply (builds_all ns); [|assumption]. apply Forall_forall. intros n _. apply builds_every. Qed.

Lemma straight_corrected k n p : Forall (fun c => c <> []) (node_paths n) -> straight n p -> poly_of n (correct_poly k p).
Proof.
  destruct n as [c holes]. intros HC [E F]. cbn [node_paths] in HC. apply Forall_cons_iff in HC as [H1 H2]. unfold poly_of, correct_poly. cbn [fst snd]. split.
  - split; [assumption|]. rewrite E. destruct (_ <? _); auto.
  - clear E c H1. induction F as [|[hc hs] r holes rs E F IH]; [constructor|]. cbn [flat_map node_paths] in H2. apply Forall_cons_iff in H2 as [H2 H3]. apply Forall_app in H3 as [_ H3].
    cbn [map]. constructor; [|now apply IH]. split; [assumption|]. rewrite E. destruct (_ <? _); auto.
Qed.
Lemma solids_paths n : forall m, In m (solids n) -> incl (node_paths m) (node_paths n).
Proof.
  cut (forall n, (forall m, In m (solids n) -> incl (node_paths m) (node_paths n)) /\ match n with PNode _ ns => Forall (fun n => forall m, In m (solids n) -> incl (node_paths m) (node_paths n)) ns end); [intros H; apply H|].
  clear n. intros n. induction n as [c ns F] using pnode_induction. split; [|eapply Forall_impl; [|exact F]; intros a [H _]; exact H].
  intros m Hm. cbn [solids] in Hm. destruct Hm as [<-|Hm]; [intros x Hx; exact Hx|]. apply in_flat_map in Hm as ([hc hs] & Hh & Hm). apply in_flat_map in Hm as (s & Hs & Hm).
  destruct (proj1 (Forall_forall _ _) F _ Hh) as [_ Fs]. pose proof (proj1 (Forall_forall _ _) Fs _ Hs m Hm) as HI. intros x Hx. cbn [node_paths]. right. apply in_flat_map.
  exists (PNode hc hs). split; [assumption|]. cbn [node_paths]. right. apply in_flat_map. exists s. split; [assumption|]. now apply HI.
Qed.
Lemma Forall_incl_paths P n m : In m (solids n) -> Forall P (node_paths n) -> Forall P (node_paths m).
Proof. intros H F. apply Forall_forall. intros c Hc. exact (proj1 (Forall_forall _ _) F _ (solids_paths n m H c Hc)). Qed.
Lemma polys_of k (P : line -> Prop) ns out ms : Forall (fun c => c <> [] /\ P c) (flat_map node_paths ns) -> Permutation ms (flat_map solids ns) -> Forall2 straight ms out ->
  Forall2 poly_of ms (map (correct_poly k) out) /\ Forall (fun m => Forall P (node_paths m)) ms.
Proof.
  intros HC HP HS. assert (HM : Forall (fun m => Forall (fun c => c <> [] /\ P c) (node_paths m)) ms).
  { apply Forall_forall. intros m Hm. apply (Permutation_in _ HP) in Hm. apply in_flat_map in Hm as (n & Hn & Hm). apply (Forall_incl_paths _ n m Hm).
    apply Forall_forall. intros c Hc. apply (proj1 (Forall_forall _ _) HC). apply in_flat_map. eauto. }
  split; [|eapply Forall_impl; [|exact HM]; intros m H; eapply Forall_impl; [|exact H]; intros c [_ Hc]; exact Hc].
  clear HP HC. induction HS as [|m p ms out E HS IH]; [constructor|]. apply Forall_cons_iff in HM as [H1 H2]. cbn [map]. constructor; [|now apply IH].
  apply straight_corrected; [|assumption]. eapply Forall_impl; [|exact H1]. intros c [H _]. exact H.
Qed.

(** ** Clipping *)
Lemma filter_lines_in k b ls l : In l (filter (fun l => negb (length l <? 2)%nat) (k_lines k b ls)) -> In l (k_lines k b ls) /\ (2 <= length l)%nat.
Proof. intros H. apply filter_In in H as [H1 H2]. split; [assumption|]. destruct (Nat.ltb_spec (length l) 2); [discriminate|lia]. Qed.
Lemma map_path ps : Forall (fun r : line => r <> []) (poly_rings ps) -> map_res ring_to_path (flat_map (fun p => fst p :: snd p) ps) = Ok (map ring_path (poly_rings ps)).
Proof.
  change (flat_map (fun p => fst p :: snd p) ps) with (poly_rings ps). induction 1 as [|r rs H HF IH]; [reflexivity|]. cbn [map_res map]. rewrite IH. destruct r; [contradiction | reflexivity].
Qed.
Lemma map_path_ok ps s : map_res ring_to_path (flat_map (fun p => fst p :: snd p) ps) = Ok s -> Forall (fun r : line => r <> []) (poly_rings ps) /\ s = map ring_path (poly_rings ps).
Proof.
  change (flat_map (fun p => fst p :: snd p) ps) with (poly_rings ps). revert s. induction (poly_rings ps) as [|r rs IH]; intros s H; cbn [map_res] in H; [apply Ok_inj in H; subst; split; [constructor | reflexivity]|].
  apply bind_ok in H as (p & E & H). apply bind_ok in H as (s' & E' & H). apply Ok_inj in H. subst s. destruct (IH _ E') as [H1 ->]. destruct r as [|a r]; [discriminate E|]. apply Ok_inj in E. subst p.
  split; [constructor; [discriminate | assumption] | reflexivity].
Qed.
Lemma add_paths_ok k ls : Forall (fun l => exists a, k_add k l = Ok a) ls -> exists a, add_paths k ls = Ok a /\ (a = true <-> Exists (fun l => k_add k l = Ok true) ls).
Proof.
  induction 1 as [|l ls (a & E) HF (r & E' & IH)]; [exists false; split; [reflexivity|]; split; [discriminate | intros H; inversion H]|].
  cbn [add_paths]. rewrite E, E'. cbn [bind]. exists (a || r). split; [reflexivity|]. rewrite Bool.orb_true_iff, IH. split.
  - intros [->|H]; [left; assumption | right; assumption].
  - intros H. inversion H as [? ? H1|? ? H1]; subst; [left; congruence | right; assumption].
Qed.
Lemma add_paths_some k ls a : add_paths k ls = Ok a -> Forall (fun l => exists a, k_add k l = Ok a) ls.
Proof.
  revert a. induction ls as [|l ls IH]; intros a H; [constructor|]. cbn [add_paths] in H. apply bind_ok in H as (x & E & H). apply bind_ok in H as (y & E' & H). constructor; [eauto|]. now apply (IH y).
Qed.
Lemma box_path_area b : range_box b -> Forall in_range (box_to_path b) /\ surveyor (path_ring (box_to_path b)) <> 0.
Proof.
  intros (H1 & H2 & H3 & H4). unfold box_to_path, path_ring. split.
  - repeat apply Forall_cons; try apply Forall_nil; unfold in_range; cbn [fst snd]; lia.
  - cbn [app surveyor fst snd]. nia.
Qed.
Lemma box_accepted k b : clipper_ok k -> range_box b -> k_add k (box_to_path b) = Ok true.
Proof. intros HK Hb. destruct (box_path_area b Hb). now apply (ck_area _ HK). Qed.
Lemma ring_points_range ps : Forall in_range (geom_points (GPoly ps)) -> Forall (fun l => Forall in_range l) (poly_rings ps).
Proof.
  intros H. apply Forall_forall. intros r Hr. apply Forall_forall. intros p Hp. apply (proj1 (Forall_forall _ _) H). cbn [geom_points]. unfold poly_rings in Hr.
  apply in_flat_map in Hr as (q & Hq & Hr). apply in_flat_map. exists q. split; [assumption|]. unfold poly_points. destruct Hr as [<-|Hr]; apply in_or_app; [now left | right]. apply in_concat. eauto.
Qed.
Lemma paths_range ps : Forall in_range (geom_points (GPoly ps)) -> Forall (fun l => Forall in_range l) (map ring_path (poly_rings ps)).
Proof.
  intros H. apply Forall_map. eapply Forall_impl; [|exact (ring_points_range _ H)]. cbn beta. intros r Hr. apply Forall_forall. intros p Hp. apply (proj1 (Forall_forall _ _) Hr). now apply ring_path_in.
Qed.

Definition solution (k : clipper) (b : fbox) (ps : list poly) : list pnode := k_execute k (map ring_path (poly_rings ps)) (box_to_path b).
(** what clipping a polygon does *)
Lemma clip_polygon_spec k b ps : clipper_ok k -> range_box b -> Forall in_range (geom_points (GPoly ps)) -> Forall (fun r : line => r <> []) (poly_rings ps) ->
  (Exists (fun r => k_add k (ring_path r) = Ok true) (poly_rings ps) /\
    ((solution k b ps = [] /\ cut_of k b (GPoly ps) = Ok GNull) \/
     solution k b ps <> [] /\ exists out ms, cut_of k b (GPoly ps) = Ok (GPoly out) /\ Permutation ms (flat_map solids (solution k b ps)) /\ Forall2 poly_of ms out)) \/
  (Forall (fun r => k_add k (ring_path r) = Ok false) (poly_rings ps) /\ cut_of k b (GPoly ps) = Throw).
Proof.
  intros HK Hb HR HN. cbn [cut_of]. unfold clip_polygon. rewrite (map_path ps HN). cbn [bind].
  assert (HA : Forall (fun l => exists a, k_add k l = Ok a) (map ring_path (poly_rings ps))) by (eapply Forall_impl; [|exact (paths_range _ HR)]; apply (ck_range _ HK)).
  destruct (add_paths_ok k _ HA) as (a & E & Ha). rewrite E. cbn [bind]. destruct a; cbn [verify bind].
  - left. split; [apply Exists_exists; apply proj1 in Ha; specialize (Ha eq_refl); apply Exists_exists in Ha as (l & Hl & H); apply in_map_iff in Hl as (r & <- & Hr); eauto|].
    rewrite (box_accepted k b HK Hb). cbn [bind]. fold (solution k b ps). pose proof (ck_inside _ HK (map ring_path (poly_rings ps)) b Hb) as HI. fold (solution k b ps) in HI.
    destruct (solution_polys (solution k b ps)) as (out & ms & E1 & E2 & E3); [eapply Forall_impl; [|exact HI]; intros c [Hc _]; exact Hc|].
    destruct (polys_of k _ _ _ _ HI E2 E3) as [E4 _]. destruct (solution k b ps) as [|n ns]; [left; auto | right]. split; [discriminate|]. cbn [bind verify]. rewrite E1. cbn [bind]. exists (map (correct_poly k) out), ms. auto.
  - right. split; [|reflexivity]. apply Forall_forall. intros r Hr. destruct (proj1 (Forall_forall _ _) HA (ring_path r) (in_map _ _ _ Hr)) as ([] & Hx); [|assumption].
    exfalso. apply proj2 in Ha. discriminate Ha. apply Exists_exists. exists (ring_path r). split; [now apply in_map | assumption].
Qed.
Lemma poly_of_in b ms out p : Forall2 poly_of ms out -> Forall (fun m => Forall (fun c => Forall (in_area b) c) (node_paths m)) ms ->
  In p (geom_points (GPoly out)) -> in_area b p.
Proof.
  intros HF HM Hp. cbn [geom_points] in Hp. apply in_flat_map in Hp as (q & Hq & Hp). destruct (Forall2_in_r _ _ _ _ HF Hq) as (m & Hm & HP). pose proof (proj1 (Forall_forall _ _) HM _ Hm) as HB. cbn beta in HB.
  destruct m as [c holes]. destruct HP as [H1 H2]. cbn [node_paths] in HB. apply Forall_cons_iff in HB as [B1 B2]. unfold poly_points in Hp. apply in_app_or in Hp as [Hp|Hp].
  - exact (proj1 (Forall_forall _ _) B1 _ (runs_along_in _ _ _ H1 Hp)).
  - apply in_concat in Hp as (r & Hr & Hp). destruct (Forall2_in_r _ _ _ _ H2 Hr) as ([hc hs] & Hh & HR). assert (Hc : In hc (flat_map node_paths holes)) by (apply in_flat_map; exists (PNode hc hs); split; [assumption | left; reflexivity]).
    pose proof (proj1 (Forall_forall _ _) B2 _ Hc) as HX. exact (proj1 (Forall_forall _ _) HX _ (runs_along_in _ _ _ HR Hp)).
Qed.
Lemma poly_of_closed ms out : Forall2 poly_of ms out -> Forall closed_ring (poly_rings out).
Proof.
  intros HF. apply Forall_forall. intros r Hr. unfold poly_rings in Hr. apply in_flat_map in Hr as (q & Hq & Hr). destruct (Forall2_in_r _ _ _ _ HF Hq) as ([c holes] & _ & H1 & H2).
  destruct Hr as [<-|Hr]; [exact (runs_along_closed _ _ H1)|]. destruct (Forall2_in_r _ _ _ _ H2 Hr) as ([hc hs] & _ & HR). exact (runs_along_closed _ _ HR).
Qed.

(** whatever the coordinates: an answer is made from the solution *)
Lemma clip_polygon_made k b ps g : clipper_ok k -> range_box b -> cut_of k b (GPoly ps) = Ok g ->
  Forall (fun r : line => r <> []) (poly_rings ps) /\
  ((solution k b ps = [] /\ g = GNull) \/
   solution k b ps <> [] /\ exists out ms, g = GPoly out /\ Permutation ms (flat_map solids (solution k b ps)) /\ Forall2 poly_of ms out /\
     Forall (fun m => Forall (fun c => Forall (in_area b) c) (node_paths m)) ms).
Proof.
  intros HK Hb H. cbn [cut_of] in H. unfold clip_polygon in H. apply bind_ok in H as (s & E & H). apply map_path_ok in E as [HN ->]. split; [assumption|].
  apply bind_ok in H as (a & _ & H). apply bind_ok in H as ([] & _ & H). apply bind_ok in H as (c & _ & H). apply bind_ok in H as ([] & _ & H). fold (solution k b ps) in H.
  pose proof (ck_inside _ HK (map ring_path (poly_rings ps)) b Hb) as HI. fold (solution k b ps) in HI.
  destruct (solution_polys (solution k b ps)) as (out & ms & E1 & E2 & E3); [eapply Forall_impl; [|exact HI]; intros l [Hc _]; exact Hc|].
  destruct (polys_of k _ _ _ _ HI E2 E3) as [E4 E5]. destruct (solution k b ps) as [|n ns]; [left; split; [reflexivity|]; apply Ok_inj in H; congruence | right]. split; [discriminate|].
  rewrite E1 in H. cbn [bind] in H. apply Ok_inj in H. subst g. eauto 8.
Qed.

Lemma cut_of_ok k : clipper_ok k -> cut_ok (cut_of k).
Proof.
  intros HK b g g' Hb H. destruct g as [|ps|ls|ps].
  - apply Ok_inj in H. subst. repeat split; auto. constructor.
  - cbn [cut_of] in H. apply Ok_inj in H. subst. destruct (filter _ ps) as [|a l] eqn:E; [repeat split; auto; constructor|].
    split; [|split; [exact I | now right]]. unfold geom_in. cbn [geom_points]. rewrite <- E. apply Forall_forall. intros p Hp. apply filter_In in Hp as [_ Hp]. unfold within in Hp. lia.
  - cbn [cut_of] in H. apply Ok_inj in H. subst g'. unfold clip_lines. destruct (filter _ _) as [|l out] eqn:E; [repeat split; auto; constructor|]. split; [|split; [exact I | now right]].
    unfold geom_in. apply Forall_forall. intros p Hp. cbn [geom_points] in Hp. apply in_concat in Hp as (l' & Hl & Hp). rewrite <- E in Hl. apply filter_lines_in in Hl as [Hl _].
    exact (proj1 (Forall_forall _ _) (proj1 (Forall_forall _ _) (ck_lines _ HK b ls Hb) _ Hl) _ Hp).
  - destruct (clip_polygon_made k b ps g' HK Hb H) as (_ & [[_ ->]|(_ & out & ms & -> & _ & HF & HM)]); [repeat split; auto; constructor|].
    split; [|split; [exact (poly_of_closed _ _ HF) | now right]]. unfold geom_in. apply Forall_forall. intros p Hp. exact (poly_of_in b ms out p HF HM Hp).
Qed.

Lemma cut_of_areas k : clipper_ok k -> cuts_areas (cut_of k).
Proof.
  intros HK b g Hb HA. destruct g as [|ps|ls|ps]; try (cbn [cut_of]; eauto; fail). destruct HA as (H1 & H2 & H3).
  destruct (clip_polygon_spec k b ps HK Hb H1 H2) as [[_ [[_ ->]|(_ & out & ms & -> & _)]]|[HF _]]; eauto. exfalso.
  apply Exists_exists in H3 as (r & Hr & Hc & HS). pose proof (proj1 (Forall_forall _ _) HF _ Hr) as E. cbn beta in E. destruct (ring_path_ring r Hc) as [Er _].
  rewrite (ck_area _ HK) in E; [discriminate|exact (proj1 (Forall_forall _ _) (paths_range _ H1) _ (in_map _ _ _ Hr)) | now rewrite Er].
Qed.
Lemma corner_ring b i : (i < 4)%nat -> path_ring (corner_path b i) = square_ring b i.
Proof. intros H. do 4 (destruct i as [|i]; [reflexivity|]). lia. Qed.
Lemma corner_ring_rev b i : (i < 4)%nat -> exists j, (j < 4)%nat /\ path_ring (rev (corner_path b i)) = rev (square_ring b j).
Proof.
  intros H. destruct i as [|[|[|[|i]]]].
  - exists 3%nat. split; [lia | reflexivity].
  - exists 0%nat. split; [lia | reflexivity].
  - exists 1%nat. split; [lia | reflexivity].
  - exists 2%nat. split; [lia | reflexivity].
  - lia.
Qed.
Lemma cut_of_square k : clipper_ok k -> keeps_square (cut_of k).
Proof.
  intros HK b Hb. destruct (ck_square _ HK b Hb) as (i & c & Hi & Hc & E). set (sq := [(square_ring b 0, @nil line)]).
  pose proof (square_areal b Hb) as HA. unfold box_ring in HA. fold sq in HA. destruct HA as (H1 & H2 & H3).
  assert (ES : solution k b sq = [PNode c []]) by exact E. assert (Hne : c <> []) by (destruct Hc as [->| ->]; do 4 (destruct i as [|i]; [discriminate|]); lia).
  assert (HX : cut_of k b (GPoly sq) = Ok (GPoly (map (correct_poly k) [(path_ring c, [])]))).
  { cbn [cut_of]. unfold clip_polygon. rewrite (map_path sq H2). cbn [bind].
    assert (HAcc : k_add k (ring_path (square_ring b 0)) = Ok true).
    { apply (ck_area _ HK); [exact (proj1 (Forall_forall _ _) (paths_range _ H1) _ (in_map ring_path (poly_rings sq) (square_ring b 0) (or_introl eq_refl)))|].
      apply Exists_exists in H3 as (r & [<-|[]] & HC & HS). cbn [fst] in *. destruct (ring_path_ring _ HC) as [-> _]. exact HS. }
    change (map ring_path (poly_rings sq)) with [ring_path (square_ring b 0)]. cbn [add_paths]. rewrite HAcc. cbn [bind orb verify]. rewrite (box_accepted k b HK Hb). cbn [bind].
    change [ring_path (square_ring b 0)] with (map ring_path (poly_rings sq)). fold (solution k b sq). rewrite ES. cbn [to_fixed_polygons to_fixed_polygon]. rewrite (path_to_ring_some c Hne). reflexivity. }
  destruct Hc as [->| ->].
  - exists i. split; [assumption|]. rewrite HX. cbn [map]. unfold correct_poly. cbn [fst snd map]. rewrite (corner_ring b i Hi). destruct (ck_rect _ HK b i Hb Hi) as [HP _].
    replace (k_area k (square_ring b i) <? 0) with false by lia. reflexivity.
  - destruct (corner_ring_rev b i Hi) as (j & Hj & Ej). exists j. split; [assumption|]. rewrite HX. cbn [map]. unfold correct_poly. cbn [fst snd map]. rewrite Ej. destruct (ck_rect _ HK b j Hb Hj) as [_ HP].
    replace (k_area k (rev (square_ring b j)) <? 0) with true by lia. now rewrite rev_involutive.
Qed.

(** ** Regions *)
Lemma crosses_sym c a b : crosses_ray c (a, b) = crosses_ray c (b, a).
Proof.
  unfold crosses_ray. destruct a as [ax ay], b as [bx by']. cbn [fst snd]. set (px := 2 * fst c + 1). set (py := 2 * snd c + 1). rewrite (xorb_comm (0 <? 2 * ay - py)).
  destruct (xorb (0 <? 2 * by' - py) (0 <? 2 * ay - py)) eqn:E; [|reflexivity]. cbn [andb]. assert (HD : ay <> by') by (intros ->; rewrite xorb_nilpotent in E; discriminate).
  destruct (0 <? 2 * by' - py - (2 * ay - py)) eqn:E1, (0 <? 2 * ay - py - (2 * by' - py)) eqn:E2; try lia; apply Bool.eq_true_iff_eq; rewrite !Z.ltb_lt; split; intros; nia.
Qed.
Definition crossings (c : cell) (es : list (pt * pt)) : bool := fold_right xorb false (map (crosses_ray c) es).
Lemma crossings_rev c l : crossings c (open_edges (rev l)) = crossings c (open_edges l).
Proof.
  induction l as [|a l IH]; [reflexivity|]. destruct l as [|b l]; [reflexivity|].
  assert (E : forall m p q, open_edges (m ++ [p; q]) = open_edges (m ++ [p]) ++ [(p, q)]).
  { induction m as [|x m IHm]; intros p q; [reflexivity|]. destruct m as [|y m]; [reflexivity|].
    change (open_edges ((x :: y :: m) ++ [p; q])) with ((x, y) :: open_edges ((y :: m) ++ [p; q])). rewrite IHm. reflexivity. }
  change (rev (a :: b :: l)) with ((rev l ++ [b]) ++ [a]). rewrite <- app_assoc. cbn [app]. rewrite E. unfold crossings. rewrite map_app, xorb_app. change (rev (b :: l)) with (rev l ++ [b]) in IH.
  unfold crossings in IH. rewrite IH. change (open_edges (a :: b :: l)) with ((a, b) :: open_edges (b :: l)). cbn [map fold_right]. rewrite (crosses_sym c b a), xorb_false_r. apply xorb_comm.
Qed.
Lemma closed_crossings r c : closed_ring r -> inside [r] c = crossings c (open_edges r).
Proof.
  intros (p & q & ->). unfold inside, crossings. cbn [flat_map]. rewrite app_nil_r, path_edges_open, map_app, xorb_app. cbn [map fold_right].
  change (p :: q ++ [p]) with ((p :: q) ++ [p]). rewrite last_last, (ray_row c p p eq_refl), !xorb_false_r. reflexivity.
Qed.
Lemma inside_rev r c : closed_ring r -> inside [rev r] c = inside [r] c.
Proof. intros H. etransitivity; [exact (closed_crossings (rev r) c (rev_closed _ H))|]. rewrite crossings_rev. symmetry. now apply closed_crossings. Qed.
Lemma inside_corrected k ps c : Forall closed_ring (poly_rings ps) -> inside (poly_rings (map (correct_poly k) ps)) c = inside (poly_rings ps) c.
Proof.
  induction ps as [|[o is] ps IH]; [reflexivity|]. cbn [map poly_rings flat_map]. intros H. apply Forall_app in H as [H1 H2]. rewrite !inside_app. f_equal; [|apply IH; exact H2]. cbn [correct_poly fst snd].
  cbn [fst snd] in H1. apply Forall_cons_iff in H1 as [H1 H3]. rewrite inside_cons, (inside_cons o). f_equal; [destruct (_ <? _); [now apply inside_rev | reflexivity]|].
  clear -H3. induction H3 as [|r ins Hr H3 IH3]; [reflexivity|]. cbn [map]. rewrite inside_cons, (inside_cons r), IH3. f_equal. destruct (_ <? _); [now apply inside_rev | reflexivity].
Qed.
Lemma straight_closed ms out : Forall (fun m => Forall (fun c => c <> []) (node_paths m)) ms -> Forall2 straight ms out -> Forall closed_ring (poly_rings out).
Proof.
  intros HC HF. induction HF as [|[c hs] p ms out [E1 E2] HF IH]; [constructor|]. apply Forall_cons_iff in HC as [HC HC']. cbn [node_paths] in HC. apply Forall_cons_iff in HC as [HC1 HC2].
  cbn [poly_rings flat_map]. apply Forall_app. split; [|now apply IH]. constructor; [rewrite E1; now apply path_ring_closed|].
  clear -E2 HC2. induction E2 as [|[hc hh] r hs rs E E2 IH]; [constructor|]. cbn [flat_map node_paths] in HC2. apply Forall_cons_iff in HC2 as [H1 H2]. apply Forall_app in H2 as [_ H2].
  constructor; [rewrite E; now apply path_ring_closed | now apply IH].
Qed.
Lemma inside_paths rs c : Forall closed_ring rs -> inside (map ring_path rs) c = inside rs c.
Proof.
  induction 1 as [|r rs H HF IH]; [reflexivity|]. cbn [map]. rewrite inside_cons, (inside_cons r), IH. f_equal. destruct (ring_path_ring r H) as [E _]. rewrite <- E at 2.
  symmetry. apply (inside_close (ring_path r)).
Qed.
Lemma cut_of_inside k b ps g c : clipper_ok k -> range_box b -> cut_of k b (GPoly ps) = Ok g -> inside (rings_in g) c = inside (flat_map node_paths (solution k b ps)) c.
Proof.
  intros HK Hb H. cbn [cut_of] in H. unfold clip_polygon in H. apply bind_ok in H as (s & E & H). apply map_path_ok in E as [HN ->].
  apply bind_ok in H as (a & _ & H). apply bind_ok in H as ([] & _ & H). apply bind_ok in H as (a' & _ & H). apply bind_ok in H as ([] & _ & H). fold (solution k b ps) in H.
  pose proof (ck_inside _ HK (map ring_path (poly_rings ps)) b Hb) as HI. fold (solution k b ps) in HI. assert (HI' : Forall (fun c => c <> []) (flat_map node_paths (solution k b ps))) by (eapply Forall_impl; [|exact HI]; intros l [Hc _]; exact Hc).
  destruct (solution_polys _ HI') as (out & ms & E1 & E2 & E3). destruct (solution k b ps) as [|n ns] eqn:ES; [apply Ok_inj in H; subst g; reflexivity|]. rewrite E1 in H. cbn [bind] in H. apply Ok_inj in H. subst g. cbn [rings_in].
  rewrite inside_corrected; [exact (polygons_inside _ _ c E1)|]. apply (straight_closed ms); [|assumption].
  apply Forall_forall. intros m Hm. apply (Permutation_in _ E2) in Hm. apply in_flat_map in Hm as (n' & Hn & Hm). apply (Forall_incl_paths _ n' m Hm).
  apply Forall_forall. intros l Hl. apply (proj1 (Forall_forall _ _) HI'). apply in_flat_map. eauto.
Qed.
Lemma cut_of_region k b ps g n c : clipper_ok k -> clips_near k -> range_box b -> rings_closed (GPoly ps) -> cut_of k b (GPoly ps) = Ok g -> 0 <= n ->
  (deep_in (n + 1) (poly_rings ps) c -> cell_in (n + 1) b c -> deep_in n (rings_in g) c) /\
  (deep_out (n + 1) (poly_rings ps) c -> deep_out n (rings_in g) c) /\
  (forall d, inside (rings_in g) d = true -> cell_in 0 b d).
Proof.
  intros HK HN Hb HC H Hn. destruct (HN (map ring_path (poly_rings ps)) b n c Hb Hn) as [N1 N2]. fold (solution k b ps) in N1, N2.
  assert (EI : forall d, inside (map ring_path (poly_rings ps)) d = inside (poly_rings ps) d) by (intros d; apply inside_paths, HC).
  assert (EO : forall d, inside (rings_in g) d = inside (flat_map node_paths (solution k b ps)) d) by (intros d; now apply cut_of_inside). split; [|split].
  - intros HD HB d Hd. rewrite EO. apply N1; [|assumption|assumption]. intros e He. rewrite EI. now apply HD.
  - intros HD d Hd. rewrite EO. apply N2; [|assumption]. intros e He. rewrite EI. now apply HD.
  - intros d Hd. destruct (clip_polygon_made k b ps g HK Hb H) as (_ & [[_ ->]|(_ & out & ms & -> & _ & HF & HM)]); [discriminate|].
    unfold cell_in. rewrite !Z.add_0_r, !Z.sub_0_r. apply (inside_bounds (rings_in (GPoly out))) with (x0 := bminx b) (x1 := bmaxx b) (y0 := bminy b) (y1 := bmaxy b); [|assumption].
    apply Forall_forall. intros p Hp. apply in_concat in Hp as (r & Hr & Hp). cbn [rings_in] in Hr. apply (poly_of_in b ms out p HF HM). cbn [geom_points]. unfold poly_rings in Hr.
    apply in_flat_map in Hr as (q & Hq & Hr). apply in_flat_map. exists q. split; [assumption|]. unfold poly_points. destruct Hr as [<-|Hr]; apply in_or_app; [now left | right]. apply in_concat. eauto.
Qed.

(** ** Winding *)
Lemma corrected_turn k p : exact_signs k -> closed_ring (fst p) -> Forall in_range (fst p) -> surveyor (fst (correct_poly k p)) <= 0.
Proof.
  intros HE HC HR. pose proof (HE _ HC HR) as E. unfold correct_poly. cbn [fst]. destruct (k_area k (fst p) <? 0) eqn:EA; [rewrite surveyor_rev|]; lia.
Qed.
Lemma corrected_holes k p : exact_signs k -> Forall (fun r => closed_ring r /\ Forall in_range r) (snd p) -> Forall (fun r => 0 <= surveyor r) (snd (correct_poly k p)).
Proof.
  intros HE HF. unfold correct_poly. cbn [snd]. apply Forall_map. eapply Forall_impl; [|exact HF]. cbn beta. intros r [HC HR]. pose proof (HE _ HC HR) as E. destruct (0 <? k_area k r) eqn:EA; [rewrite surveyor_rev|]; lia.
Qed.

Lemma cut_of_winding k b ps out : clipper_ok k -> exact_signs k -> range_box b -> cut_of k b (GPoly ps) = Ok (GPoly out) ->
  Forall (fun p => surveyor (fst p) <= 0 /\ Forall (fun r => 0 <= surveyor r) (snd p)) out.
Proof.
  intros HK HE Hb H. cbn [cut_of] in H. unfold clip_polygon in H. apply bind_ok in H as (s & E & H). apply map_path_ok in E as [HN ->].
  apply bind_ok in H as (a & _ & H). apply bind_ok in H as ([] & _ & H). apply bind_ok in H as (a' & _ & H). apply bind_ok in H as ([] & _ & H). fold (solution k b ps) in H.
  pose proof (ck_inside _ HK (map ring_path (poly_rings ps)) b Hb) as HI. fold (solution k b ps) in HI. assert (HI' : Forall (fun c => c <> []) (flat_map node_paths (solution k b ps))) by (eapply Forall_impl; [|exact HI]; intros l [Hc _]; exact Hc).
  destruct (solution_polys _ HI') as (out' & ms & E1 & E2 & E3). destruct (solution k b ps) as [|n ns] eqn:ES; [discriminate H|]. rewrite E1 in H. cbn [bind] in H. apply Ok_inj in H. injection H as <-.
  assert (HM : Forall (fun m => Forall (fun c => c <> [] /\ Forall in_range c) (node_paths m)) ms).
  { apply Forall_forall. intros m Hm. apply (Permutation_in _ E2) in Hm. apply in_flat_map in Hm as (n' & Hn & Hm). apply (Forall_incl_paths _ n' m Hm).
    apply Forall_forall. intros l Hl. destruct (proj1 (Forall_forall _ _) HI l) as [L1 L2]; [apply in_flat_map; eauto|]. split; [assumption|]. eapply Forall_impl; [|exact L2].
    intros p [P1 P2]. destruct Hb as (B1 & B2 & B3 & B4). unfold in_range. lia. }
  assert (HR : forall l : line, l <> [] /\ Forall in_range l -> closed_ring (path_ring l) /\ Forall in_range (path_ring l)).
  { intros l [L1 L2]. split; [now apply path_ring_closed|]. apply Forall_forall. intros p Hp. apply (proj1 (Forall_forall _ _) L2). now apply path_ring_in. }
  apply Forall_map. clear -E3 HM HR HE. induction E3 as [|[c hs] p ms out [S1 S2] E3 IH]; [constructor|]. apply Forall_cons_iff in HM as [HM HM']. constructor; [|now apply IH].
  cbn [node_paths] in HM. apply Forall_cons_iff in HM as [M1 M2]. destruct (HR _ M1) as [R1 R2]. rewrite <- S1 in R1, R2. split; [now apply corrected_turn|]. apply corrected_holes; [assumption|].
  clear -S2 M2 HR. induction S2 as [|[hc hh] r hs rs E S2 IH]; [constructor|]. cbn [flat_map node_paths] in M2. apply Forall_cons_iff in M2 as [H1 H2]. apply Forall_app in H2 as [_ H2]. constructor; [rewrite E; now apply HR | now apply IH].
Qed.
Lemma sea_winding k z v : (z <= 20)%N -> is_sea k z v -> exists r, v_geom v = VRings [r] /\ ~ wound_as_specified (r, []).
Proof.
  intros Hz (i & Hi & ->). eexists. split; [reflexivity|]. intros [H _]. cbn [fst] in H. revert H. unfold square_ring, sea_box. cbn [bminx bminy bmaxx bmaxy].
  assert (HP : 0 < 2 ^ (20 - Z.of_N z)) by (apply Z.pow_pos_nonneg; lia).
  set (P := 2 ^ (20 - Z.of_N z)) in *. clearbody P.
  assert (Hn : 0 <= 4096 / P) by (apply Z.div_pos; lia).
  assert (Hm : (-4096) / P <= 0) by (apply Z.div_le_upper_bound; lia).
  set (n := 4096 + 4096 / P). set (m := (-4096) / P). assert (m < n) by (unfold m, n; lia). clearbody m n.
  do 4 (destruct i as [|i]; [cbn [skipn firstn app surveyor fst snd]; nia|]). lia.
Qed.
Lemma filter_keeps {A} (f : A -> bool) (P : A -> Prop) : (forall x, f x = true <-> P x) -> forall l, keeps_only P l (filter f l).
Proof. intros H. induction l as [|x l IH]; [constructor|]. cbn [filter]. destruct (f x) eqn:E; [apply ko_keep; [now apply H | assumption] | apply ko_drop; [rewrite <- H, E; discriminate | assumption]]. Qed.

(** ** Polygons without an area *)
Lemma flat_fails k b ps : clipper_ok k -> range_box b -> Forall in_range (geom_points (GPoly ps)) -> Forall (fun r => r <> [] /\ flat (ring_path r)) (poly_rings ps) -> cut_of k b (GPoly ps) = Throw.
Proof.
  intros HK Hb HR HF. destruct (clip_polygon_spec k b ps HK Hb HR) as [[HE _]|[_ HT]]; [eapply Forall_impl; [|exact HF]; intros r [H _]; exact H| |assumption].
  exfalso. apply Exists_exists in HE as (r & Hr & E). destruct (proj1 (Forall_forall _ _) HF _ Hr) as [_ Hfl]. rewrite (ck_flat _ HK) in E; [discriminate| |assumption].
  exact (proj1 (Forall_forall _ _) (paths_range _ HR) _ (in_map _ _ _ Hr)).
Qed.

Open Scope N_scope.
(** every first polygon of a layer is clipped *)
Lemma clip_needed c a f b buf : build_tile c (a ++ f :: b) = Ok buf ->
  (forall g, In g a -> ~ (f_layer g = f_layer f /\ f_id g = f_id f /\ kind (f_geom g) = kind (f_geom f))) ->
  kind (f_geom f) = 3 -> exists f', clip_shift c f = Ok f'.
Proof.
  set (fs := a ++ f :: b). intros H Hfirst Hk.
  assert (Hlc : exists ws, layer_content c (f_layer f) fs = Ok ws).
  { unfold build_tile in H. apply bind_ok in H as (tb & E0 & H).
    destruct (tb_add_features_spec c fs [] [] tb (tb_inv_init c) E0) as (I1 & I2 & I3). cbn [app] in *.
    assert (Hin : In (f_layer f) (keys tb)).
    { apply I2. unfold part, fs. rewrite filter_app. cbn [filter]. rewrite N.eqb_refl. destruct (filter _ a); discriminate. }
    destruct (lookup_in _ _ Hin) as (lb & El). destruct (I3 _ _ El) as (name & _ & Hadds).
    apply lookup_some_in in El as [_ El].
    clear - H Hadds El. revert buf H. induction tb as [|[j lb0] tb IH]; intros buf H; [destruct El|]. cbn [tb_finish] in H.
    apply bind_ok in H as (lb1 & E1 & H). apply bind_ok in H as (l & _ & H). apply bind_ok in H as (r & E3 & _).
    destruct El as [El|El]; [|now apply IH with (buf := r)]. injection El as -> ->.
    destruct (layer_spec c name _ fs lb lb1 Hadds E1) as (ws & Hws & _). eauto. }
  destruct Hlc as (ws & Hws). unfold layer_content in Hws. apply bind_ok in Hws as (direct & E1 & H1). apply bind_ok in H1 as (polys & E2 & _).
  assert (Hin : In f (first_of_kind [] (filter (fun g => f_layer g =? f_layer f) fs))).
  { unfold fs. rewrite filter_app. cbn [filter]. rewrite N.eqb_refl. apply first_of_kind_mem; [unfold not_null; now rewrite Hk|reflexivity|].
    intros g Hg. apply filter_In in Hg as [Hg1 Hg2]. unfold id_kind. intros Eg. injection Eg as Eg1 Eg2. apply (Hfirst g Hg1). split; [lia|]. auto. }
  assert (HM : forall l r, map_res (clip_shift c) l = Ok r -> In f l -> exists f', clip_shift c f = Ok f').
  { clear. induction l as [|g l IH]; intros r E Hi; [destruct Hi|]. cbn [map_res] in E. apply bind_ok in E as (x & E1 & E). destruct Hi as [->|Hi]; [eauto|]. apply bind_ok in E as (y & E2 & _). now apply (IH y). }
  destruct (buffered c f) eqn:EB.
  - apply (HM _ _ E2). apply filter_In. split; [assumption|]. unfold buffered in EB. unfold of_kind. rewrite Hk in *. cbn in EB. rewrite andb_false_r in EB. cbn [orb] in EB. exact EB.
  - apply (HM _ _ E1). apply filter_In. split; [assumption|]. now rewrite EB.
Qed.

Lemma flat_get raw enc mk srt x t tiles features s rows sea k f ps :
  sorts_by_key srt -> tz t <= 20 -> valid_tile t -> coder_ok enc (x_dec x) -> mask_ok mk (x_rd x) (tz t) -> clipper_ok k -> x_cut x = cut_of k -> seaside_is x sea ->
  database_ok raw enc (x_dec x) mk (x_rd x) srt s features rows -> ~ prepared x t ->
  In f (near_features rows t) -> must_draw raw mk (x_rd x) t f ->
  (f_layer f = 0 -> forall e, covers t e -> covered sea e -> tile_to_key e 0 <> Ok (f_id f)) ->
  (forall f', In f' (near_features rows t) -> f_layer f' = f_layer f -> f_id f' = f_id f -> kind (f_geom f') = 3 -> same_but f f' (f_geom f)) ->
  simplified raw mk (x_rd x) (tz t) f = GPoly ps -> Forall in_range (geom_points (GPoly ps)) -> Forall (fun r => r <> [] /\ flat (ring_path r)) (poly_rings ps) ->
  forall r, get_tile tiles features s x t <> Ok r.
Proof.
  intros Hsrt Hz Hv R1 R2 HK Ecut Hsea Hdb Hprep Hin Hm Hl Hu ES HR HF r0 HG.
  rewrite (get_unprepared x t tiles features s Hz Hprep) in HG.
  assert (R3 : cut_ok (x_cut x)) by (rewrite Ecut; now apply cut_of_ok).
  destruct (builder_for x t Hz Hv R3) as (c & EB & HX & N1 & N2 & N3 & N4 & N5 & N6 & N7 & N8).
  destruct (sea_total x t sea Hsea Hz Hv) as (ss & ESS & FS).
  destruct (features_drawn raw enc mk srt x t Hsrt Hz Hv R1 R2 s features rows Hdb) as (pk & gs & E1 & E2 & shown & hidden & P & G1 & G2 & G3).
  rewrite E1 in HG. cbn [bind] in HG. unfold render_tile in HG. rewrite EB, ESS, E2 in HG. cbn [bind] in HG.
  assert (Hsh : In f shown).
  { apply (Permutation_in _ (Permutation_sym P)) in Hin. apply in_app_or in Hin as [H|H]; [assumption|]. destruct (proj1 (Forall_forall _ _) G3 _ H Hm). }
  assert (Hk3 : kind (f_geom f) = 3). { destruct (simplified_kind raw mk (x_rd x) (tz t) f) as [E|E]; rewrite ES in E; [discriminate | now rewrite <- E]. }
  set (p := fun h => (f_layer h =? f_layer f) && (f_id h =? f_id f) && (kind (f_geom h) =? 3)).
  assert (Hk : forall f' h, drawn_as raw mk x t f' h -> may_draw raw mk (x_rd x) t f' -> kind (f_geom h) = kind (f_geom f')).
  { intros f' h (_ & _ & _ & _ & _ & E) (_ & _ & Hnn). rewrite E. destruct (simplified_kind raw mk (x_rd x) (tz t) f'); [contradiction | assumption]. }
  destruct (first_match p gs) as (u & h & v & Eg & Hp & Hbefore).
  { destruct (Forall2_in_l _ _ _ _ G1 Hsh) as (h & Hh & HD). exists h. split; [assumption|]. pose proof (Hk f h HD (proj1 (Forall_forall _ _) G2 _ Hsh)) as K.
    destruct HD as (D1 & D2 & _). unfold p. rewrite K, D1, D2, Hk3, !N.eqb_refl. reflexivity. }
  assert (Hh : In h gs) by (rewrite Eg; apply in_or_app; right; now left).
  destruct (Forall2_in_r _ _ _ _ G1 Hh) as (f1 & Hf1 & HD). pose proof (Hk f1 h HD (proj1 (Forall_forall _ _) G2 _ Hf1)) as K.
  unfold p in Hp. apply andb_prop in Hp as [Hp Hp3]. apply andb_prop in Hp as [Hp1 Hp2]. apply N.eqb_eq in Hp1, Hp2, Hp3.
  destruct HD as (D1 & D2 & D3 & D4 & D5 & D6).
  assert (SB : same_but f f1 (f_geom f)).
  { apply Hu; [apply (Permutation_in _ P); apply in_or_app; now left | congruence | congruence | congruence]. }
  destruct SB as (_ & _ & _ & _ & _ & B6).
  assert (ESf : f_geom h = GPoly ps) by (rewrite D6, <- ES; unfold simplified; now rewrite B6).
  assert (HB : exists buf, build_tile c ((ss ++ u) ++ h :: v) = Ok buf).
  { rewrite <- app_assoc, <- Eg. destruct (x_ignore_seaside x) eqn:EI.
    - destruct (sea_contains x sea t Hsea Hz Hv) as (b & Eb & _). rewrite Eb in HG. cbn [bind] in HG. assert (Eskip : (b && match gs with [] => true | _ => false end)%bool = false) by (destruct gs; [destruct Hh | apply andb_false_r]).
      rewrite Eskip in HG. cbn [bind] in HG. apply bind_ok in HG as (buf & HG & _). eauto.
    - cbn [bind] in HG. apply bind_ok in HG as (buf & HG & _). eauto. }
  destruct HB as (buf & HB).
  destruct (clip_needed c (ss ++ u) h v buf HB) as (h' & EC).
  - intros g Hg (Q1 & Q2 & Q3). rewrite Hp3 in Q3. apply in_app_or in Hg as [Hg|Hg].
    + destruct (proj1 (Forall_forall _ _) FS _ Hg) as (L0 & _ & _ & _ & e & X1 & X2 & X3 & X4). apply (Hl ltac:(congruence) e X1 X2). rewrite X3. congruence.
    + specialize (Hbefore _ Hg). unfold p in Hbefore. rewrite Q1, Q2, Q3, Hp1, Hp2, !N.eqb_refl in Hbefore. discriminate.
  - assumption.
  - unfold clip_shift in EC. rewrite ESf, N2, N7, Ecut in EC. cbn [clip] in EC. rewrite (flat_fails k _ ps HK (area_range t Hz Hv) HR HF) in EC. discriminate.
Qed.
