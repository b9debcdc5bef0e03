(** An exact clipper on the pixel grid: rectangles are cut as rectangles, everything else cell by cell.
    It shows that what SpecCoast expects of a clipper can be met, and it is executable on rectangles. *)
From Coq Require Import Permutation.
From Verif Require Import Base BaseProof ModelTile SpecTile ModelCodec ModelGeom SpecGeom ModelFeature ModelCoast SpecCoast ProofCoast.
Open Scope Z_scope.

Definition pts_eqb (a b : line) : bool := (length a =? length b)%nat && forallb (fun p => pt_eqb (fst p) (snd p)) (combine a b).
Lemma pts_eqb_eq a b : pts_eqb a b = true -> a = b.
Proof.
  unfold pts_eqb. revert b. induction a as [|p a IH]; intros [|q b] H; [reflexivity|discriminate H|discriminate H|]. cbn [length combine forallb fst snd] in H.
  apply andb_prop in H as [HL H]. apply andb_prop in H as [Hp H]. rewrite (IH b); [|rewrite H, andb_true_r; apply Nat.eqb_eq; apply Nat.eqb_eq in HL; lia].
  f_equal. unfold pt_eqb in Hp. destruct p, q. cbn [fst snd] in Hp. f_equal; lia.
Qed.
Definition box_some (b : fbox) : bool := (bminx b <? bmaxx b) && (bminy b <? bmaxy b).
Definition box_around (l : line) : fbox := match l with (x0, y0) :: _ :: (x1, y1) :: _ => FBox x0 y0 x1 y1 | _ => FBox 0 0 0 0 end.
(** the box a path goes around *)
Definition rect_of (l : line) : option fbox :=
  let b := box_around l in
  if box_some b && (pts_eqb l (box_to_path b) || pts_eqb l (close (box_to_path b))) then Some b else None.
Fixpoint rects_of (s : list line) : option (list fbox) :=
  match s with
  | [] => Some []
  | l :: s' => match rect_of l, rects_of s' with Some b, Some bs => Some (b :: bs) | _, _ => None end
  end.
Definition box_meet (a b : fbox) : fbox := FBox (Z.max (bminx a) (bminx b)) (Z.max (bminy a) (bminy b)) (Z.min (bmaxx a) (bmaxx b)) (Z.min (bmaxy a) (bmaxy b)).
Definition in_boxes (bs : list fbox) (c : cell) : bool := fold_right xorb false (map (fun b => cell_inb b c) bs).
(** the cells of a box *)
Definition zrange (a b : Z) : list Z := map (fun i => a + Z.of_nat i) (seq 0 (Z.to_nat (b - a))).
Definition cells (b : fbox) : list cell := flat_map (fun y => map (fun x => (x, y)) (zrange (bminx b) (bmaxx b))) (zrange (bminy b) (bmaxy b)).
Definition unit_box (c : cell) : fbox := FBox (fst c) (snd c) (fst c + 1) (snd c + 1).
Definition boxes_cut (s : list line) (b : fbox) : list fbox :=
  match rects_of s with
  | Some bs => filter box_some (map (box_meet b) bs)
  | None => map unit_box (filter (inside s) (cells (box_meet b (paths_box s))))
  end.
Definition grid_cut (s : list line) (clip : line) : res (list line) := Ok (map box_to_path (boxes_cut s (box_around clip))).
(** two rectangles side by side fill the box *)
Definition side_by_side (b : fbox) (s : list line) : bool :=
  match rects_of s with
  | Some [l; r] => let l := box_meet b l in let r := box_meet b r in
      (bminx l =? bminx b) && (bmaxx l =? bminx r) && (bmaxx r =? bmaxx b) && (bminy l =? bminy b) && (bminy r =? bminy b) && (bmaxy l =? bmaxy b) && (bmaxy r =? bmaxy b)
  | _ => false
  end.
Definition grid_diff (clip : line) (s : list line) : list pnode :=
  let b := box_around clip in
  if side_by_side b s then []
  else if box_some b then [PNode (box_to_path b) (map (fun r => PNode (box_to_path r) []) (boxes_cut s b))] else [].

Lemma around_box b : box_around (box_to_path b) = b.
Proof. destruct b. reflexivity. Qed.
Lemma inside_rect b c : box_some b = true -> inside [box_to_path b] c = cell_inb b c.
Proof.
  unfold box_some. intros H. destruct b as [x0 y0 x1 y1]. cbn [bminx bminy bmaxx bmaxy] in H. unfold inside, box_to_path. cbn [bminx bminy bmaxx bmaxy flat_map path_edges combine app map fold_right].
  rewrite ?ray_flat, ?ray_upright. unfold cell_inb. cbn [bminx bminy bmaxx bmaxy fst snd].
  destruct (y0 <=? snd c) eqn:?, (y1 <=? snd c) eqn:?, (fst c <? x0) eqn:?, (fst c <? x1) eqn:?; cbn; lia.
Qed.
Lemma inside_boxes bs c : Forall (fun b => box_some b = true) bs -> inside (map box_to_path bs) c = in_boxes bs c.
Proof. induction 1 as [|b bs H F IH]; [reflexivity|]. cbn [map]. rewrite inside_cons, IH, (inside_rect b c H). reflexivity. Qed.
Lemma rect_of_inside l b c : rect_of l = Some b -> inside [l] c = cell_inb b c /\ box_some b = true.
Proof.
  unfold rect_of. destruct (box_some (box_around l)) eqn:Eb; cbn [andb]; [|discriminate]. destruct (_ || _) eqn:E; [|discriminate]. intros H. injection H as <-. split; [|exact Eb].
  apply orb_prop in E as [E|E]; apply pts_eqb_eq in E.
  - rewrite E at 1. now apply inside_rect.
  - rewrite E at 1. rewrite inside_close. now apply inside_rect.
Qed.
Lemma rects_inside s bs c : rects_of s = Some bs -> inside s c = in_boxes bs c.
Proof.
  revert bs. induction s as [|l s IH]; intros bs H; cbn [rects_of] in H; [injection H as <-; reflexivity|].
  destruct (rect_of l) as [b|] eqn:El; [|discriminate H]. destruct (rects_of s) as [bs'|]; [|discriminate H]. injection H as <-.
  rewrite inside_cons, (IH _ eq_refl), (proj1 (rect_of_inside l b c El)). reflexivity.
Qed.
Lemma meet_inb a b c : cell_inb (box_meet a b) c = cell_inb a c && cell_inb b c.
Proof. unfold cell_inb, box_meet. cbn [bminx bminy bmaxx bmaxy]. lia. Qed.
Lemma none_inb b c : box_some b = false -> cell_inb b c = false.
Proof. unfold box_some, cell_inb. lia. Qed.
Lemma in_boxes_meet b bs c : in_boxes (filter box_some (map (box_meet b) bs)) c = cell_inb b c && in_boxes bs c.
Proof.
  unfold in_boxes. induction bs as [|a bs IH]; cbn [map filter fold_right]; [now rewrite andb_false_r|]. destruct (box_some (box_meet b a)) eqn:E.
  - cbn [map fold_right]. rewrite IH, meet_inb. generalize (fold_right xorb false (map (fun b => cell_inb b c) bs)). intros f. now destruct (cell_inb b c), (cell_inb a c), f.
  - rewrite IH. pose proof (none_inb _ c E) as N. rewrite meet_inb in N. revert N. generalize (fold_right xorb false (map (fun b => cell_inb b c) bs)). intros f.
    destruct (cell_inb b c), (cell_inb a c), f; cbn; congruence.
Qed.
Lemma zrange_In a b x : In x (zrange a b) <-> a <= x < b.
Proof.
  unfold zrange. rewrite in_map_iff. split.
  - intros (i & <- & H). apply in_seq in H. lia.
  - intros H. exists (Z.to_nat (x - a)). split; [lia|]. apply in_seq. lia.
Qed.
Lemma zrange_NoDup a b : NoDup (zrange a b).
Proof. unfold zrange. generalize 0%nat as k. induction (Z.to_nat (b - a)) as [|n IH]; intros k; cbn [seq map]; constructor; [|apply IH]. rewrite in_map_iff. intros (i & H & Hi). apply in_seq in Hi. lia. Qed.
Lemma cells_In b c : In c (cells b) <-> cell_inb b c = true.
Proof.
  unfold cells. rewrite in_flat_map. unfold cell_inb. destruct c as [x y]. cbn [fst snd]. split.
  - intros (y' & Hy & H). apply in_map_iff in H as (x' & E & Hx). injection E as -> ->. apply zrange_In in Hy, Hx. lia.
  - intros H. exists y. split; [apply zrange_In; lia|]. apply in_map_iff. exists x. split; [reflexivity|]. apply zrange_In. lia.
Qed.
Lemma cells_NoDup b : NoDup (cells b).
Proof.
  unfold cells. generalize (zrange_NoDup (bminy b) (bmaxy b)). generalize (zrange (bminy b) (bmaxy b)). induction 1 as [|y ys N ND IH]; cbn [flat_map]; [constructor|].
  assert (H : NoDup (map (fun x => (x, y)) (zrange (bminx b) (bmaxx b)))).
  { generalize (zrange_NoDup (bminx b) (bmaxx b)). generalize (zrange (bminx b) (bmaxx b)). clear. induction 1 as [|x xs N ND IH]; cbn [map]; constructor; [|exact IH]. rewrite in_map_iff. intros (x' & E & H). congruence. }
  assert (HD : forall c, In c (map (fun x => (x, y)) (zrange (bminx b) (bmaxx b))) -> ~ In c (flat_map (fun y0 => map (fun x => (x, y0)) (zrange (bminx b) (bmaxx b))) ys)).
  { intros c Hc Hf. apply in_map_iff in Hc as (x & <- & _). apply in_flat_map in Hf as (y' & Hy & Hm). apply in_map_iff in Hm as (x' & E & _). injection E as _ ->. contradiction. }
  revert H HD. generalize (map (fun x => (x, y)) (zrange (bminx b) (bmaxx b))). intros l. induction l as [|c l IHl]; intros H HD; cbn [app]; [exact IH|]. inversion H as [|? ? Nc H']; subst. constructor.
  - rewrite in_app_iff. intros [Hc|Hc]; [contradiction|]. apply (HD c); [left; reflexivity|exact Hc].
  - apply IHl; [exact H'|]. intros c' Hc'. apply HD. right. exact Hc'.
Qed.
Lemma unit_inb d c : cell_inb (unit_box d) c = true <-> c = d.
Proof. unfold cell_inb, unit_box. cbn [bminx bminy bmaxx bmaxy]. destruct c, d. cbn [fst snd]. split; [intros H; f_equal; lia|intros H; injection H as -> ->; lia]. Qed.
Lemma in_units l c : NoDup l -> in_boxes (map unit_box l) c = true <-> In c l.
Proof.
  unfold in_boxes. induction 1 as [|d l N ND IH]; cbn [map fold_right]; [split; [discriminate|intros []]|]. destruct (cell_inb (unit_box d) c) eqn:E.
  - apply unit_inb in E. subst d. destruct (fold_right _ _ _); cbn [xorb]; [destruct N; apply IH; reflexivity|]. split; [left; reflexivity|reflexivity].
  - rewrite xorb_false_l, IH. split; [right; assumption|]. intros [->|H]; [|exact H]. rewrite (proj2 (unit_inb c c) eq_refl) in E. discriminate E.
Qed.

Lemma boxes_cut_some s b : Forall (fun b => box_some b = true) (boxes_cut s b).
Proof.
  unfold boxes_cut. destruct (rects_of s).
  - apply Forall_forall. intros a Ha. apply filter_In in Ha. tauto.
  - apply Forall_forall. intros a Ha. apply in_map_iff in Ha as (c & <- & _). unfold box_some, unit_box. cbn [bminx bminy bmaxx bmaxy]. lia.
Qed.
Lemma boxes_cut_inside s b c : in_boxes (boxes_cut s b) c = cell_inb b c && inside s c.
Proof.
  unfold boxes_cut. destruct (rects_of s) as [bs|] eqn:E.
  - rewrite in_boxes_meet, (rects_inside s bs c E). reflexivity.
  - apply eq_iff_eq_true. rewrite in_units by apply NoDup_filter, cells_NoDup. rewrite filter_In, cells_In, meet_inb. split.
    + intros [H1 H2]. rewrite H2, andb_true_r. now apply andb_prop in H1.
    + intros H. apply andb_prop in H as [H1 H2]. split; [|exact H2]. rewrite H1. cbn [andb]. apply cell_inb_spec, inside_box, H2.
Qed.
Lemma cut_region s b r c : grid_cut s (box_to_path b) = Ok r -> inside r c = cell_inb b c && inside s c.
Proof. unfold grid_cut. rewrite around_box. intros H. apply Ok_inj in H. subst r. rewrite inside_boxes by apply boxes_cut_some. apply boxes_cut_inside. Qed.
Lemma rect_clean b : box_some b = true -> clean_path (box_to_path b).
Proof.
  unfold box_some. destruct b as [x0 y0 x1 y1]. cbn [bminx bminy bmaxx bmaxy]. intros H. unfold clean_path, box_to_path. cbn [bminx bminy bmaxx bmaxy path_edges combine app]. split.
  - repeat constructor; cbn [In]; intros Hin; repeat match type of Hin with _ \/ _ => destruct Hin as [Hin|Hin] end; try exact Hin; injection Hin; intros; lia.
  - intros e f He Hf. cbn [In] in He, Hf. unfold segments_cross, orient.
    assert (exists w h, x1 = x0 + w /\ y1 = y0 + h /\ 0 < w /\ 0 < h) as (w & h & -> & -> & Hw & Hh) by (exists (x1 - x0), (y1 - y0); lia).
    assert (0 < w * h) as Hwh by nia. clear H.
    destruct He as [<-|[<-|[<-|[<-|[]]]]], Hf as [<-|[<-|[<-|[<-|[]]]]]; cbn [fst snd]; intros [H1 H2]; ring_simplify in H1; ring_simplify in H2; try lia; try nia.
Qed.
Lemma leaf_paths rs : flat_map node_paths (map (fun r => PNode (box_to_path r) []) rs) = map box_to_path rs.
Proof. induction rs as [|r rs IH]; [reflexivity|]. cbn [map flat_map node_paths app]. now rewrite IH. Qed.
Lemma diff_region b s c : inside (flat_map node_paths (grid_diff (box_to_path b) s)) c = cell_inb b c && negb (inside s c).
Proof.
  unfold grid_diff. rewrite around_box. destruct (side_by_side b s) eqn:Es.
  - unfold side_by_side in Es. destruct (rects_of s) as [[|l [|r [|]]]|] eqn:E; try discriminate Es. rewrite (rects_inside s _ c E). cbn [flat_map]. rewrite inside_nil.
    unfold in_boxes. cbn [map fold_right]. rewrite xorb_false_r. pose proof (meet_inb b l c) as Ml. pose proof (meet_inb b r c) as Mr. revert Es Ml Mr.
    assert (Hx : bminx b <= bminx (box_meet b r)) by (unfold box_meet; cbn [bminx]; lia). assert (Hy : bmaxx (box_meet b l) <= bmaxx b) by (unfold box_meet; cbn [bmaxx]; lia).
    revert Hx Hy. generalize (box_meet b l) (box_meet b r) (cell_inb l c) (cell_inb r c). intros l' r' bl br Hx Hy Es Ml Mr.
    destruct (cell_inb b c) eqn:Eb; [|reflexivity]. cbn [andb] in *. subst bl br. unfold cell_inb in *.
    destruct (Z_lt_dec (fst c) (bmaxx l')).
    + replace (_ && (fst c <? bmaxx l') && _ && _) with true by lia. replace ((bminx r' <=? fst c) && _ && _ && _) with false by lia. reflexivity.
    + replace (_ && (fst c <? bmaxx l') && _ && _) with false by lia. replace ((bminx r' <=? fst c) && _ && _ && _) with true by lia. reflexivity.
  - destruct (box_some b) eqn:Eb; [|cbn [flat_map]; rewrite inside_nil, (none_inb b c Eb); reflexivity].
    cbn [flat_map node_paths]. rewrite app_nil_r, leaf_paths, inside_cons, (inside_rect b c Eb), inside_boxes, boxes_cut_inside by apply boxes_cut_some. now destruct (cell_inb b c), (inside s c).
Qed.

Theorem grid_clips_well : clips_well grid_cut grid_diff (fun ps => ps).
Proof.
  constructor.
  - intros s b r n c E Hn D Hc d Hd. rewrite (cut_region _ _ _ _ E), D by (unfold near_cell in *; lia). rewrite andb_true_r. apply cell_inb_spec. unfold cell_in, near_cell in *. lia.
  - intros s b r n c E Hn D d Hd. rewrite (cut_region _ _ _ _ E), D by (unfold near_cell in *; lia). apply andb_false_r.
  - intros s b r E. unfold grid_cut in E. apply Ok_inj in E. subst r. apply Forall_map. eapply Forall_impl; [|apply boxes_cut_some]. intros a Ha. now apply rect_clean.
  - intros b s n c Hn Hc D d Hd. rewrite diff_region, D by (unfold near_cell in *; lia). rewrite andb_true_r. apply cell_inb_spec. unfold cell_in, near_cell in *. lia.
  - intros b s n c Hn D d Hd. rewrite diff_region, D by (unfold near_cell in *; lia). apply andb_false_r.
  - reflexivity.
Qed.
