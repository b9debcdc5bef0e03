(** Proofs about the coastline import: regions. *)
From Coq Require Import Permutation.
From Verif Require Import Base BaseProof ModelTile SpecTile ModelCodec ModelGeom SpecGeom ModelFeature ModelCoast SpecCoast.
Open Scope Z_scope.

Lemma xorb_app a b : fold_right xorb false (a ++ b) = xorb (fold_right xorb false a) (fold_right xorb false b).
Proof. induction a as [|x a IH]; cbn [app fold_right]; [now destruct (fold_right xorb false b)|]. rewrite IH. now destruct x, (fold_right xorb false a), (fold_right xorb false b). Qed.
Lemma inside_app a b c : inside (a ++ b) c = xorb (inside a c) (inside b c).
Proof. unfold inside. rewrite flat_map_app, map_app. apply xorb_app. Qed.
Lemma inside_nil c : inside [] c = false.
Proof. reflexivity. Qed.
Lemma inside_cons l ls c : inside (l :: ls) c = xorb (inside [l] c) (inside ls c).
Proof. apply (inside_app [l] ls). Qed.
Lemma xorb_perm a b : Permutation a b -> fold_right xorb false a = fold_right xorb false b.
Proof.
  induction 1 as [|x a b H IH|x y a|a b c H1 IH1 H2 IH2]; cbn [fold_right]; [reflexivity|now rewrite IH| |congruence].
  now destruct x, y, (fold_right xorb false a).
Qed.
Lemma inside_perm a b c : Permutation a b -> inside a c = inside b c.
Proof. intros H. unfold inside. apply xorb_perm, Permutation_map, Permutation_flat_map, H. Qed.

(** crossings of a path along its edges *)
Fixpoint open_edges (l : line) : list (pt * pt) :=
  match l with
  | a :: ((b :: _) as l') => (a, b) :: open_edges l'
  | _ => []
  end.
Lemma combine_tail (x p : pt) l : combine (x :: l) (l ++ [p]) = open_edges (x :: l) ++ [(last (x :: l) x, p)].
Proof.
  revert x. induction l as [|y l IH]; intros x; [reflexivity|]. cbn [app combine open_edges]. f_equal.
  change (y :: l) with (y :: l) in *. specialize (IH y). cbn [combine app] in IH. rewrite IH. f_equal. f_equal. f_equal.
  cbn [last]. destruct l; [reflexivity|]. clear. revert p0. induction l as [|z l IH]; intros q; [reflexivity|]. cbn [last]. apply IH.
Qed.
Lemma path_edges_open p l : path_edges (p :: l) = open_edges (p :: l) ++ [(last (p :: l) p, p)].
Proof. apply combine_tail. Qed.
Lemma open_edges_in l e : In e (open_edges l) -> In (fst e) l /\ In (snd e) l.
Proof.
  induction l as [|a [|b l] IH]; cbn [open_edges]; [intros []|intros []|]. intros [<-|H]; [split; [left; reflexivity|right; left; reflexivity]|].
  destruct (IH H). split; right; assumption.
Qed.
Lemma last_in {A} (l : list A) d : l <> [] -> In (last l d) l.
Proof. induction l as [|a [|b l] IH]; intros H; [congruence|left; reflexivity|]. right. apply IH. discriminate. Qed.
Lemma path_edges_in l e : In e (path_edges l) -> In (fst e) l /\ In (snd e) l.
Proof.
  destruct l as [|p l]; [intros []|]. rewrite path_edges_open. intros H. apply in_app_or in H as [H|[<-|[]]]; [apply open_edges_in, H|].
  split; [apply last_in; discriminate|left; reflexivity].
Qed.

(** a point on one side of the row's middle line *)
Definition above_row (y : Z) (p : pt) : bool := 0 <? 2 * snd p - (2 * y + 1).
Definition changes (y : Z) (e : pt * pt) : bool := xorb (above_row y (fst e)) (above_row y (snd e)).
Lemma changes_open y l p : fold_right xorb false (map (changes y) (open_edges (p :: l))) = xorb (above_row y p) (above_row y (last (p :: l) p)).
Proof.
  revert p. induction l as [|q l IH]; intros p; [cbn [open_edges map fold_right last]; now rewrite xorb_nilpotent|].
  change (open_edges (p :: q :: l)) with ((p, q) :: open_edges (q :: l)). cbn [map fold_right]. rewrite IH. unfold changes at 1. cbn [fst snd].
  replace (last (p :: q :: l) p) with (last (q :: l) q).
  - now destruct (above_row y p), (above_row y q), (above_row y (last (q :: l) q)).
  - cbn [last]. destruct l; [reflexivity|]. clear. revert p0. induction l as [|z l IH]; intros r; [reflexivity|]. cbn [last]. apply IH.
Qed.
Lemma changes_path y l : fold_right xorb false (map (changes y) (path_edges l)) = false.
Proof.
  destruct l as [|p l]; [reflexivity|]. rewrite path_edges_open, map_app, xorb_app, changes_open. cbn [map fold_right]. unfold changes. cbn [fst snd].
  now destruct (above_row y p), (above_row y (last (p :: l) p)).
Qed.

(** nothing is inside left, right, above or below all points *)
Lemma ray_false c a b : fst a <= fst c -> fst b <= fst c -> crosses_ray c (a, b) = false.
Proof.
  intros Ha Hb. unfold crosses_ray. destruct (xorb _ _) eqn:E; [|reflexivity]. cbn [andb].
  set (u := 2 * snd a - (2 * snd c + 1)) in *. set (v := 2 * snd b - (2 * snd c + 1)) in *. clearbody u v.
  assert (H : 0 < u /\ v <= 0 \/ u <= 0 /\ 0 < v) by lia. destruct (0 <? v - u) eqn:D; [|assert (v - u < 0) by lia]; nia.
Qed.
Lemma ray_true c a b : fst c < fst a -> fst c < fst b -> crosses_ray c (a, b) = changes (snd c) (a, b).
Proof.
  intros Ha Hb. unfold crosses_ray, changes, above_row. cbn [fst snd].
  assert (Na : 2 * snd a - (2 * snd c + 1) <> 0) by lia. assert (Nb : 2 * snd b - (2 * snd c + 1) <> 0) by lia.
  set (u := 2 * snd a - (2 * snd c + 1)) in *. set (v := 2 * snd b - (2 * snd c + 1)) in *. clearbody u v.
  destruct (xorb _ _) eqn:E; [|reflexivity]. cbn [andb].
  assert (H : 0 < u /\ v < 0 \/ u < 0 /\ 0 < v) by lia. destruct (0 <? v - u) eqn:D; [|assert (v - u < 0) by lia]; nia.
Qed.
Lemma ray_row c a b : above_row (snd c) a = above_row (snd c) b -> crosses_ray c (a, b) = false.
Proof. unfold crosses_ray, above_row. intros ->. now rewrite xorb_nilpotent. Qed.

Lemma xorb_all_false (l : list bool) : (forall x, In x l -> x = false) -> fold_right xorb false l = false.
Proof. induction l as [|x l IH]; intros H; [reflexivity|]. cbn [fold_right]. rewrite (H x (or_introl eq_refl)), IH; [reflexivity|]. intros y Hy. apply H. right. exact Hy. Qed.
Lemma map_ext_In {A B} (f g : A -> B) l : (forall x, In x l -> f x = g x) -> map f l = map g l.
Proof. apply map_ext_in. Qed.

Lemma inside_bounds ps c x0 x1 y0 y1 : Forall (fun q => x0 <= fst q <= x1 /\ y0 <= snd q <= y1) (concat ps) -> inside ps c = true ->
  x0 <= fst c < x1 /\ y0 <= snd c < y1.
Proof.
  intros F H. unfold inside in H. rewrite Forall_forall in F.
  assert (FE : forall e, In e (flat_map path_edges ps) -> (x0 <= fst (fst e) <= x1 /\ y0 <= snd (fst e) <= y1) /\ (x0 <= fst (snd e) <= x1 /\ y0 <= snd (snd e) <= y1)).
  { intros e He. apply in_flat_map in He as (l & Hl & He). apply path_edges_in in He as [H1 H2]. split; apply F, in_concat; eauto. }
  destruct (Z_lt_dec (fst c) x0) as [L|L].
  { exfalso. assert (E : map (crosses_ray c) (flat_map path_edges ps) = map (changes (snd c)) (flat_map path_edges ps)).
    { apply map_ext_in. intros [a b] He. specialize (FE _ He). cbn [fst snd] in FE. apply ray_true; lia. }
    rewrite E in H. clear -H. induction ps as [|l ps IH]; [discriminate|]. cbn [flat_map] in H. rewrite map_app, xorb_app, changes_path in H.
    destruct (fold_right xorb false (map (changes (snd c)) (flat_map path_edges ps))); [auto|discriminate]. }
  assert (HF : forall e, In e (flat_map path_edges ps) -> (x1 <= fst c \/ snd c < y0 \/ y1 <= snd c) -> crosses_ray c e = false).
  { intros [a b] He D. specialize (FE _ He). cbn [fst snd] in FE. destruct D as [D|[D|D]]; [apply ray_false; lia|apply ray_row; unfold above_row; lia|apply ray_row; unfold above_row; lia]. }
  destruct (Z_lt_dec (fst c) x1) as [R|R], (Z_lt_dec (snd c) y0) as [B|B], (Z_lt_dec (snd c) y1) as [T|T]; try (split; lia);
    exfalso; rewrite xorb_all_false in H; try discriminate; intros x Hx; apply in_map_iff in Hx as (e & <- & He); apply HF; auto; lia.
Qed.

(** the box of the points *)
Lemma envelope_bounds ps :
  Forall (fun q => bminx (envelope ps) <= fst q <= bmaxx (envelope ps) /\ bminy (envelope ps) <= snd q <= bmaxy (envelope ps)) ps.
Proof.
  unfold envelope. assert (G : forall ps b, bminx (fold_left box_add ps b) <= bminx b /\ bminy (fold_left box_add ps b) <= bminy b /\
    bmaxx b <= bmaxx (fold_left box_add ps b) /\ bmaxy b <= bmaxy (fold_left box_add ps b)).
  { clear. induction ps as [|q ps IH]; intros b; cbn [fold_left]; [lia|]. specialize (IH (box_add b q)). cbn [box_add bminx bminy bmaxx bmaxy] in *. unfold box_add in *. cbn [bminx bminy bmaxx bmaxy] in *. lia. }
  generalize inverse_box as b. induction ps as [|q ps IH]; intros b; constructor; cbn [fold_left].
  - specialize (G ps (box_add b q)). unfold box_add in *. cbn [bminx bminy bmaxx bmaxy] in *. lia.
  - apply IH.
Qed.

Lemma inside_box ps c : inside ps c = true -> cell_in 0 (paths_box ps) c.
Proof.
  intros H. destruct (inside_bounds ps c _ _ _ _ (envelope_bounds (concat ps)) H) as [H1 H2]. unfold cell_in, paths_box. lia.
Qed.

(** ** boxes *)
Lemma ray_flat c x1 x2 y : crosses_ray c ((x1, y), (x2, y)) = false.
Proof. apply ray_row. reflexivity. Qed.
Lemma ray_upright c x y1 y2 : crosses_ray c ((x, y1), (x, y2)) = xorb (y1 <=? snd c) (y2 <=? snd c) && (fst c <? x).
Proof.
  destruct (Z_le_dec x (fst c)) as [L|L].
  - rewrite ray_false by (cbn [fst]; lia). replace (fst c <? x) with false by lia. now rewrite andb_false_r.
  - rewrite ray_true by (cbn [fst]; lia). unfold changes, above_row. cbn [fst snd]. replace (fst c <? x) with true by lia. rewrite andb_true_r.
    destruct (y1 <=? snd c) eqn:E1, (y2 <=? snd c) eqn:E2, (0 <? 2 * y1 - (2 * snd c + 1)) eqn:E3, (0 <? 2 * y2 - (2 * snd c + 1)) eqn:E4; lia.
Qed.
Definition cell_inb (b : fbox) (c : cell) : bool := (bminx b <=? fst c) && (fst c <? bmaxx b) && (bminy b <=? snd c) && (snd c <? bmaxy b).

(** a clean path through the four corners goes around the box *)
Lemma corner_path b q c : bminx b < bmaxx b -> bminy b < bmaxy b -> clean_path q -> length q = 4%nat ->
  (forall p, In p q -> In p (box_to_path b)) -> inside [q] c = cell_inb b c.
Proof.
  intros Hx Hy [ND NC] HL HI. destruct b as [x0 y0 x1 y1]. cbn [bminx bminy bmaxx bmaxy] in *.
  destruct q as [|p0 [|p1 [|p2 [|p3 [|]]]]]; try discriminate HL. clear HL.
  assert (N01 : p0 <> p1) by (inversion ND as [|? ? N _]; intros ->; apply N; left; reflexivity).
  assert (N02 : p0 <> p2) by (inversion ND as [|? ? N _]; intros ->; apply N; right; left; reflexivity).
  assert (N03 : p0 <> p3) by (inversion ND as [|? ? N _]; intros ->; apply N; right; right; left; reflexivity).
  assert (N12 : p1 <> p2) by (inversion ND as [|? ? _ N']; inversion N' as [|? ? N _]; intros ->; apply N; left; reflexivity).
  assert (N13 : p1 <> p3) by (inversion ND as [|? ? _ N']; inversion N' as [|? ? N _]; intros ->; apply N; right; left; reflexivity).
  assert (N23 : p2 <> p3) by (inversion ND as [|? ? _ N']; inversion N' as [|? ? _ N'']; inversion N'' as [|? ? N _]; intros ->; apply N; left; reflexivity).
  clear ND. cbn [path_edges combine app] in NC.
  pose proof (NC (p0, p1) (p2, p3)) as C1. pose proof (NC (p1, p2) (p3, p0)) as C2. clear NC.
  specialize (C1 ltac:(cbn; auto) ltac:(cbn; auto)). specialize (C2 ltac:(cbn; auto) ltac:(cbn; auto)).
  unfold segments_cross, orient in C1, C2. cbn [fst snd] in C1, C2.
  unfold inside. cbn [flat_map path_edges combine app map fold_right].
  pose proof (HI p0 ltac:(cbn; auto)) as I0. pose proof (HI p1 ltac:(cbn; auto)) as I1. pose proof (HI p2 ltac:(cbn; auto)) as I2. pose proof (HI p3 ltac:(cbn; auto)) as I3.
  clear HI. unfold box_to_path in *. cbn [In bminx bminy bmaxx bmaxy] in *.
  assert (E : forall w h, (0 < w -> 0 < h -> w * h * (w * h) > 0)) by (intros; nia).
  specialize (E (x1 - x0) (y1 - y0) ltac:(lia) ltac:(lia)).
  destruct I0 as [<-|[<-|[<-|[<-|[]]]]], I1 as [<-|[<-|[<-|[<-|[]]]]]; try congruence;
  destruct I2 as [<-|[<-|[<-|[<-|[]]]]]; try congruence; destruct I3 as [<-|[<-|[<-|[<-|[]]]]]; try congruence; clear N01 N02 N03 N12 N13 N23;
  cbn [fst snd] in *; try (exfalso; first [apply C1; clear -E; split; nia | apply C2; clear -E; split; nia]);
  rewrite ?ray_flat, ?ray_upright; unfold cell_inb; cbn [bminx bminy bmaxx bmaxy];
  clear -Hx Hy; destruct (y0 <=? snd c) eqn:?, (y1 <=? snd c) eqn:?, (fst c <? x0) eqn:?, (fst c <? x1) eqn:?; cbn; lia.
Qed.
Lemma cell_inb_spec b c : cell_inb b c = true <-> cell_in 0 b c.
Proof. unfold cell_inb, cell_in. lia. Qed.

(** ** polygons from the clipper's tree *)
Definition close (l : line) : line := match l with [] => [] | p :: _ => l ++ [p] end.
Lemma inside_close l c : inside [close l] c = inside [l] c.
Proof.
  destruct l as [|p l]; [reflexivity|]. unfold inside. cbn [flat_map close]. rewrite !app_nil_r.
  change ((p :: l) ++ [p]) with (p :: (l ++ [p])). rewrite !path_edges_open, !map_app, !xorb_app. cbn [map fold_right].
  assert (E1 : open_edges (p :: l ++ [p]) = open_edges (p :: l) ++ [(last (p :: l) p, p)]).
  { clear. generalize p at 1 3 4 as x. induction l as [|y l IH]; intros x; [reflexivity|].
    change (open_edges (x :: (y :: l) ++ [p])) with ((x, y) :: open_edges (y :: l ++ [p])). rewrite IH.
    change (open_edges (x :: y :: l)) with ((x, y) :: open_edges (y :: l)). cbn [app]. change (last (x :: y :: l) p) with (last (y :: l) p). reflexivity. }
  rewrite E1, map_app, xorb_app. cbn [map fold_right].
  assert (E2 : last (p :: l ++ [p]) p = p) by (change (p :: l ++ [p]) with ((p :: l) ++ [p]); apply last_last). rewrite E2, (ray_row c p p eq_refl), xorb_false_r. reflexivity.
Qed.
Lemma inside_closed ls c : inside (map close ls) c = inside ls c.
Proof. induction ls as [|l ls IH]; [reflexivity|]. cbn [map]. rewrite inside_cons, inside_close, IH, <- inside_cons. reflexivity. Qed.

Lemma pnode_induction (P : pnode -> Prop) : (forall c ns, Forall P ns -> P (PNode c ns)) -> forall n, P n.
Proof.
  intros H. fix IH 1. intros [c ns]. apply H. induction ns as [|n ns IHn]; constructor; [apply IH|exact IHn].
Qed.
Lemma path_to_ring_ok l r : path_to_ring l = Ok r -> r = close l /\ l <> [].
Proof. destruct l as [|p l]; [discriminate|]. unfold path_to_ring. intros H. apply Ok_inj in H. split; [symmetry; exact H|discriminate]. Qed.

Definition tree_ok (n : pnode) : Prop := forall acc r, to_fixed_polygon acc n = Ok r ->
  Permutation (poly_rings r) (poly_rings acc ++ map close (node_paths n)).
Lemma trees_ok ns : Forall tree_ok ns -> forall acc r, to_fixed_polygons acc ns = Ok r ->
  Permutation (poly_rings r) (poly_rings acc ++ map close (flat_map node_paths ns)).
Proof.
  induction 1 as [|n ns Hn F IH]; intros acc r H; cbn [to_fixed_polygons flat_map] in *.
  - apply Ok_inj in H. subst. cbn [map]. rewrite app_nil_r. reflexivity.
  - apply bind_ok in H as (p & E & H). rewrite (IH _ _ H), (Hn _ _ E), map_app, app_assoc. reflexivity.
Qed.
Lemma poly_rings_app a b : poly_rings (a ++ b) = poly_rings a ++ poly_rings b.
Proof. apply flat_map_app. Qed.

Lemma tree_all n : tree_ok n /\ match n with PNode _ ns => Forall tree_ok ns end.
Proof.
  induction n as [c ns F] using pnode_induction.
  assert (F1 : Forall tree_ok ns) by (eapply Forall_impl; [|exact F]; intros a [H _]; exact H). split; [|exact F1]. clear F1.
  intros acc r H. cbn [to_fixed_polygon] in H. apply bind_ok in H as (o & Eo & H). apply path_to_ring_ok in Eo as [-> _].
  apply bind_ok in H as ([ins p] & E & H). apply Ok_inj in H. subst r. rewrite poly_rings_app. cbn [poly_rings flat_map fst snd]. rewrite app_nil_r.
  match type of E with ?g ns [] acc = _ => set (go := g) in E end.
  assert (G : forall is ins0 acc0 ins1 p1, Forall (fun n => tree_ok n /\ match n with PNode _ ns => Forall tree_ok ns end) is -> go is ins0 acc0 = Ok (ins1, p1) ->
    Permutation (poly_rings p1 ++ ins1) (poly_rings acc0 ++ ins0 ++ map close (flat_map node_paths is))).
  { clear. induction is as [|[ci os] is IH]; intros ins0 acc0 ins1 p1 F H; cbn [go] in H.
    - apply Ok_inj in H. injection H as <- <-. cbn [flat_map map]. rewrite app_nil_r. reflexivity.
    - inversion F as [|? ? [_ Fo] F']; subst. apply bind_ok in H as (r & Er & H). apply path_to_ring_ok in Er as [-> _]. apply bind_ok in H as (p & Ep & H).
      assert (Epp : to_fixed_polygons acc0 os = Ok p).
      { rewrite <- Ep. clear. revert acc0. induction os as [|n os IH]; intros acc0; cbn [to_fixed_polygons]; [reflexivity|].
        destruct (to_fixed_polygon acc0 n) as [x| | |]; cbn [bind]; [apply IH|reflexivity..]. }
      pose proof (trees_ok os Fo _ _ Epp) as P1. pose proof (IH _ _ _ _ F' H) as P2. rewrite P2, P1.
      cbn [flat_map node_paths map]. rewrite !map_app. cbn [map].
      generalize (poly_rings acc0) (map close (flat_map node_paths os)) (map close (flat_map node_paths is)) (close ci). intros A B C x.
      rewrite <- !app_assoc. apply Permutation_app_head. cbn [app].
      rewrite (Permutation_app_comm B). rewrite <- app_assoc. cbn [app]. apply Permutation_app_head. apply perm_skip.
      apply Permutation_app_comm. }
  specialize (G ns [] acc ins p F E). cbn [app] in G. cbn [node_paths map]. cbn [app].
  etransitivity; [symmetry; apply Permutation_middle|]. etransitivity; [apply perm_skip; exact G|]. apply Permutation_middle.
Qed.

Lemma polygons_inside ns r c : to_fixed_polygons [] ns = Ok r -> inside (poly_rings r) c = inside (flat_map node_paths ns) c.
Proof.
  intros H. rewrite (inside_perm _ _ c (trees_ok ns (proj2 (Forall_forall _ _) (fun n _ => proj1 (tree_all n))) _ _ H)).
  cbn [poly_rings flat_map app]. apply inside_closed.
Qed.
