(** Proofs about the coastline import: the tiles of an outcome and what is drawn in them. *)
From Coq Require Import Permutation.
From Verif Require Import Base BaseProof ModelTile SpecTile ProofTile ModelCodec ModelGeom SpecGeom ModelFeature ModelMvt ModelRender ModelPrepare ProofPrepare
  ModelQuadTree SpecQuadTree ProofQuadTree ModelPacker SpecPacker ProofBestTile SpecBqTree SpecRender ProofRender ModelDrain SpecDrain ProofDrain ProofRepackRun
  ModelCoast SpecCoast ProofCoast.
Open Scope Z_scope.

(** ** areas *)
Lemma cell_child t i c n : (i < 4)%N -> (tz t < 20)%N -> 0 <= n -> cell_in n (tile_area (child t i)) c -> cell_in n (tile_area t) c.
Proof.
  intros Hi Hz Hn. destruct (area_child t i Hi Hz) as (Hs & -> & ->). unfold cell_in. cbn [bminx bminy bmaxx bmaxy].
  set (s := (4096 * 2 ^ (20 - Z.of_N (tz (child t i))))%Z) in *. clearbody s.
  assert (0 <= Z.of_N (i mod 2) <= 1)%Z by (clear - Hi; lia). assert (0 <= Z.of_N (i / 2) <= 1)%Z by (clear - Hi; lia).
  generalize dependent (Z.of_N (i mod 2)). generalize dependent (Z.of_N (i / 2)).
  generalize (Z.of_N (tx t)) (Z.of_N (ty t)). intros x y b Hb a Ha (H1 & H2).
  split; split; nia.
Qed.
Lemma cell_up n c : 0 <= n -> forall k t s, tz s = (tz t + N.of_nat k)%N -> covers t s -> (tz s <= 20)%N -> cell_in n (tile_area s) c -> cell_in n (tile_area t) c.
Proof.
  intros Hn. induction k as [|k IH]; intros t s Hk HC Hz HT.
  - replace t with s; [assumption|]. symmetry. apply covers_same_z; [assumption | lia].
  - destruct (below_child t s HC) as (i & Hi & Hci); [intros ->; lia|].
    apply (cell_child t i c n Hi ltac:(lia) Hn). apply (IH (child t i) s); auto.
    unfold child; cbn [tz]. lia.
Qed.
Lemma cell_covers n c t s : 0 <= n -> covers t s -> (tz s <= 20)%N -> cell_in n (tile_area s) c -> cell_in n (tile_area t) c.
Proof. intros Hn HC. apply (cell_up n c Hn (N.to_nat (tz s - tz t))); [destruct HC; lia | assumption]. Qed.
Lemma cell_draw t c n : 0 <= n <= 4096 -> cell_in 0 (tile_area t) c -> cell_in n (draw_area t) c.
Proof. unfold cell_in, draw_area. cbn [bminx bminy bmaxx bmaxy]. lia. Qed.
Lemma cell_weaken b c n m : m <= n -> cell_in n b c -> cell_in m b c.
Proof. unfold cell_in. lia. Qed.

Lemma deep_in_less n m ps c : m <= n -> deep_in n ps c -> deep_in m ps c.
Proof. intros H D d N. apply D. unfold near_cell in *. lia. Qed.
Lemma deep_out_less n m ps c : m <= n -> deep_out n ps c -> deep_out m ps c.
Proof. intros H D d N. apply D. unfold near_cell in *. lia. Qed.
Lemma deep_in_here n ps c : 0 <= n -> deep_in n ps c -> inside ps c = true.
Proof. intros H D. apply D. unfold near_cell. lia. Qed.
Lemma deep_out_here n ps c : 0 <= n -> deep_out n ps c -> inside ps c = false.
Proof. intros H D. apply D. unfold near_cell. lia. Qed.

(** ** the coastlines kept for a tile *)
Section Kept.
Variable cut : list line -> line -> res (list line).
Inductive kept_as (ins drw : fbox) (c : coast) : option coast -> Prop :=
| ka_far : coast_touches ins (co_box c) = false -> kept_as ins drw c None
| ka_within : coast_touches ins (co_box c) = true -> coast_within ins (co_box c) = true -> kept_as ins drw c (Some c)
| ka_gone : cut (co_geo c) (box_to_path drw) = Ok [] -> kept_as ins drw c None
| ka_cut geo : cut (co_geo c) (box_to_path drw) = Ok geo -> geo <> [] -> kept_as ins drw c (Some (Coast (paths_box geo) geo)).
Definition opt_list {A} (o : option A) : list A := match o with Some a => [a] | None => [] end.
Lemma match_some ins drw cs ms : match_coasts cut ins drw cs = Ok (Some ms) ->
  exists os, Forall2 (kept_as ins drw) cs os /\ ms = flat_map opt_list os.
Proof.
  revert ms. induction cs as [|c cs IH]; intros ms H; cbn [match_coasts] in H.
  - apply Ok_inj in H. injection H as <-. exists []. split; [constructor|reflexivity].
  - destruct (coast_touches ins (co_box c)) eqn:Et; cbn [negb] in H.
    + destruct (coast_within ins (co_box c)) eqn:Ew.
      * apply bind_ok in H as ([r|] & Er & H); apply Ok_inj in H; [|discriminate H]. injection H as <-.
        destruct (IH _ Er) as (os & F & ->). exists (Some c :: os). split; [constructor; [now apply ka_within|exact F]|reflexivity].
      * apply bind_ok in H as (geo & Eg & H). destruct geo as [|g geo].
        -- destruct (IH _ H) as (os & F & ->). exists (None :: os). split; [constructor; [now apply ka_gone|exact F]|reflexivity].
        -- destruct (fully_dirtside (box_to_path drw) (g :: geo)); [discriminate H|]. apply bind_ok in H as ([r|] & Er & H); apply Ok_inj in H; [|discriminate H]. injection H as <-.
           destruct (IH _ Er) as (os & F & ->). eexists (Some _ :: os). split; [constructor; [apply ka_cut; [exact Eg|discriminate]|exact F]|reflexivity].
    + destruct (IH _ H) as (os & F & ->). exists (None :: os). split; [constructor; [now apply ka_far|exact F]|reflexivity].
Qed.
Lemma match_none ins drw cs : match_coasts cut ins drw cs = Ok None ->
  exists c geo, In c cs /\ cut (co_geo c) (box_to_path drw) = Ok geo /\ fully_dirtside (box_to_path drw) geo = true.
Proof.
  induction cs as [|c cs IH]; intros H; cbn [match_coasts] in H; [discriminate H|].
  assert (IH' : match_coasts cut ins drw cs = Ok None -> exists c0 geo, In c0 (c :: cs) /\ cut (co_geo c0) (box_to_path drw) = Ok geo /\ fully_dirtside (box_to_path drw) geo = true).
  { intros E. destruct (IH E) as (a & geo & Ha & Hg). exists a, geo. split; [right; exact Ha|exact Hg]. }
  destruct (coast_touches ins (co_box c)); cbn [negb] in H; [|auto]. destruct (coast_within ins (co_box c)).
  - apply bind_ok in H as ([r|] & Er & H); apply Ok_inj in H; [discriminate H|auto].
  - apply bind_ok in H as (geo & Eg & H). destruct geo as [|g geo]; [auto|].
    destruct (fully_dirtside (box_to_path drw) (g :: geo)) eqn:Ef; [exists c, (g :: geo); split; [left; reflexivity|split; assumption]|].
    apply bind_ok in H as ([r|] & Er & H); apply Ok_inj in H; [discriminate H|auto].
Qed.
End Kept.

Lemma fully_spec drw geo : fully_dirtside (box_to_path drw) geo = true -> exists l, geo = [l] /\ length l = 4%nat /\ forall p, In p l -> In p (box_to_path drw).
Proof.
  destruct geo as [|l [|]]; cbn [fully_dirtside]; try discriminate. intros H. apply andb_prop in H as [H1 H2]. exists l. split; [reflexivity|].
  split; [now apply Nat.eqb_eq|]. intros p Hp. rewrite forallb_forall in H2. specialize (H2 p Hp). rewrite existsb_exists in H2. destruct H2 as (q & Hq & E).
  replace p with q; [exact Hq|]. unfold pt_eqb in E. destruct p, q. cbn [fst snd] in E. f_equal; lia.
Qed.

(** ** the first tasks *)
Lemma tasks_of polys g : In g (coast_tasks polys) -> valid_tile (fst g) /\ tz (fst g) = 4%N /\ snd g = map make_coast polys.
Proof.
  unfold coast_tasks. intros H. apply in_map_iff in H as (t & <- & H). apply range_tiles_In in H as (Hz & Hx & Hy). cbn [fst snd minx maxx miny maxy] in *.
  split; [|split; [exact Hz|reflexivity]]. unfold valid_tile. rewrite Hz. split; [exact (proj2 Hx)|exact (proj2 Hy)].
Qed.
Lemma tasks_cover polys v : valid_tile v -> tz v = 10%N -> exists t, In (t, map make_coast polys) (coast_tasks polys) /\ covers t v.
Proof.
  intros [Hx Hy] Hz. exists (Tile (tx v / 2 ^ 6) (ty v / 2 ^ 6) 4). split.
  - unfold coast_tasks. apply in_map_iff. eexists. split; [reflexivity|]. apply range_tiles_In. cbn [tx ty tz minx maxx miny maxy]. rewrite Hz in Hx, Hy.
    change (2 ^ 10)%N with 1024%N in *. change (2 ^ 6)%N with 64%N. change (2 ^ 4)%N with 16%N. split; [reflexivity|]. split; lia.
  - unfold covers. cbn [tx ty tz]. rewrite Hz. split; [lia|]. split; reflexivity.
Qed.
Lemma range_unrelated b z : ForallOrdPairs (fun a b => ~ related a b) (range_tiles b z).
Proof.
  assert (H : forall l, NoDup l -> (forall t, In t l -> tz t = z) -> ForallOrdPairs (fun a b => ~ related a b) l).
  { induction 1 as [|t l N ND IH]; intros Hz; [apply FOP_nil|]. apply FOP_cons; [|apply IH; intros; apply Hz; right; assumption].
    apply Forall_forall. intros s Hs R. apply N. assert (E : tz t = tz s) by (rewrite (Hz t (or_introl eq_refl)), (Hz s (or_intror Hs)); reflexivity).
    assert (t = s) by (destruct R as [R|R]; [|symmetry]; apply covers_same_z; auto). subst. exact Hs. }
  apply H; [apply range_tiles_NoDup|]. intros t Ht. apply range_tiles_In in Ht. tauto.
Qed.

(** ** one child *)
Section Run.
Variable cut : list line -> line -> res (list line).
Variable diff : line -> list line -> list pnode.
Variable fix_rings : list poly -> list poly.
Notation proc := (coast_proc cut diff fix_rings).
Notation coutput := (out ctask (tile * feature) tile).
Notation entry := ((tile * feature) + tile)%type.
Definition etile (e : entry) : tile := match e with inl d => fst d | inr z => z end.

Definition child_gives (cs : list coast) (t : tile) (l : list entry) : Prop :=
  exists os ls, process_child cut diff fix_rings cs t = Ok os /\ Forall2 (gives proc) os ls /\ l = concat ls.
Lemma children_split cs ts oss ls : Forall2 (fun t os => process_child cut diff fix_rings cs t = Ok os) ts oss ->
  Forall2 (gives proc) (concat oss) ls -> exists lss, Forall2 (child_gives cs) ts lss /\ concat ls = concat lss.
Proof.
  intros F. revert ls. induction F as [|t os ts oss H F IH]; intros ls G; cbn [concat] in G.
  - inversion G. subst. exists []. split; [constructor|reflexivity].
  - apply Forall2_app_inv_l in G as (l1 & l2 & G1 & G2 & ->). destruct (IH _ G2) as (lss & Fl & E). exists (concat l1 :: lss).
    split; [constructor; [exists os, l1; auto|exact Fl]|]. rewrite concat_app, E. reflexivity.
Qed.
Lemma task_split gs t cs l : no_exception cut diff fix_rings gs -> task_reached cut diff fix_rings gs (t, cs) -> gives proc (OTask (t, cs)) l ->
  exists lss, Forall2 (child_gives cs) (direct_children t) lss /\ l = concat lss /\
    forall ch os ms, In ch (direct_children t) -> process_child cut diff fix_rings cs ch = Ok os -> In (OTask (ch, ms)) os -> task_reached cut diff fix_rings gs (ch, ms).
Proof.
  intros NE R G. destruct (NE _ R) as (os & E). inversion G as [| |g ls F]. subst. clear G.
  unfold coast_proc in F. rewrite E in F. unfold process_coastline in E. cbn [fst snd] in E. pose proof E as E0. apply bind_ok in E as (oss & Eo & E). apply Ok_inj in E. subst os.
  apply map_res_Forall2 in Eo. destruct (children_split _ _ _ _ Eo F) as (lss & Fl & El). exists lss. split; [exact Fl|]. split; [exact El|].
  intros ch os ms Hc Hp Hi. apply (tr_next cut diff fix_rings gs (t, cs) (concat oss) (ch, ms) R).
  - unfold process_coastline. exact E0.
  - apply in_concat. exists os. split; [|exact Hi]. destruct (Forall2_in_l _ _ _ _ Eo Hc) as (os' & Ho & Hp'). cbn beta in Hp'. rewrite Hp in Hp'. apply Ok_inj in Hp'. subst. exact Ho.
Qed.

(** the four things that happen to a child *)
Inductive child_case (cs : list coast) (t : tile) : list coutput -> Prop :=
| cc_dirt : match_coasts cut (tile_area t) (draw_area t) cs = Ok None -> child_case cs t []
| cc_sea : match_coasts cut (tile_area t) (draw_area t) cs = Ok (Some []) -> child_case cs t [OSea t]
| cc_task ms : match_coasts cut (tile_area t) (draw_area t) cs = Ok (Some ms) -> ms <> [] -> (tz t < 10)%N -> child_case cs t [OTask (t, ms)]
| cc_none ms id : match_coasts cut (tile_area t) (draw_area t) cs = Ok (Some ms) -> ms <> [] -> (10 <= tz t)%N -> tile_to_key t 0 = Ok id ->
    finalize_tile cut diff fix_rings id (box_to_path (draw_area t)) (box_to_path (tile_area t)) ms = Ok None -> child_case cs t []
| cc_result ms id f : match_coasts cut (tile_area t) (draw_area t) cs = Ok (Some ms) -> ms <> [] -> (10 <= tz t)%N -> tile_to_key t 0 = Ok id ->
    finalize_tile cut diff fix_rings id (box_to_path (draw_area t)) (box_to_path (tile_area t)) ms = Ok (Some f) -> child_case cs t [OResult (t, f)].
Lemma child_cases cs t os : (tz t <= 20)%N -> valid_tile t -> process_child cut diff fix_rings cs t = Ok os -> child_case cs t os.
Proof.
  intros Hz Hv H. unfold process_child in H. destruct (tile_spec_area t Hz Hv) as (s & Es & As). destruct (spec_area t Hz Hv) as (s' & Es' & Ds & _).
  rewrite Es in Es'. apply Ok_inj in Es'. subst s'. rewrite Es in H. cbn [bind] in H. rewrite As, Ds in H. apply bind_ok in H as (m & Em & H).
  destruct m as [[|m ms]|].
  - apply Ok_inj in H. subst. now apply cc_sea.
  - destruct (tz t <? 10)%N eqn:E10.
    + apply Ok_inj in H. subst. apply cc_task; [exact Em|discriminate|lia].
    + apply bind_ok in H as (id & Ei & H). apply bind_ok in H as (o & Ef & H). destruct o as [f|]; apply Ok_inj in H; subst.
      * eapply cc_result; [exact Em|discriminate|lia|exact Ei|exact Ef].
      * eapply cc_none; [exact Em|discriminate|lia|exact Ei|exact Ef].
  - apply Ok_inj in H. subst. now apply cc_dirt.
Qed.

Lemma finalize_cases id b ib ms o : finalize_tile cut diff fix_rings id b ib ms = Ok o ->
  diff b (flat_map co_geo ms) <> [] /\
  exists r, cut (flat_map node_paths (diff b (flat_map co_geo ms))) ib = Ok r /\
  ((r = [] /\ o = None) \/
   (r <> [] /\ exists p, to_fixed_polygons [] (diff b (flat_map co_geo ms)) = Ok p /\ o = Some (Feature id kLayerCoastlineIdx 0 (kMaxZoomLevel + 1) [] (GPoly (fix_rings p))))).
Proof.
  unfold finalize_tile. intros H. apply bind_ok in H as ([] & Hv & H). apply verify_ok in Hv. split.
  - intros E. rewrite E in Hv. discriminate Hv.
  - apply bind_ok in H as (r & Er & H). exists r. split; [exact Er|]. destruct r as [|r0 r]; [apply Ok_inj in H; left; split; [reflexivity|congruence]|].
    right. split; [discriminate|]. apply bind_ok in H as (p & Ep & H). apply Ok_inj in H. exists p. split; [exact Ep|congruence].
Qed.

Lemma gives_one o l ls : Forall2 (gives proc) [o] ls -> l = concat ls -> gives proc o l.
Proof. intros F ->. inversion F as [|? l1 ? ? G F']; subst. inversion F'; subst. cbn [concat]. rewrite app_nil_r. exact G. Qed.

(** ** induction over tasks *)
Inductive child_result (P : tile -> list coast -> list entry -> Prop) (cs : list coast) (t : tile) : list entry -> Prop :=
| cr_dirt : match_coasts cut (tile_area t) (draw_area t) cs = Ok None -> child_result P cs t []
| cr_sea : match_coasts cut (tile_area t) (draw_area t) cs = Ok (Some []) -> child_result P cs t [inr t]
| cr_task ms l : match_coasts cut (tile_area t) (draw_area t) cs = Ok (Some ms) -> ms <> [] -> (tz t < 10)%N -> P t ms l -> child_result P cs t l
| cr_none ms id : match_coasts cut (tile_area t) (draw_area t) cs = Ok (Some ms) -> ms <> [] -> tz t = 10%N -> tile_to_key t 0 = Ok id ->
    finalize_tile cut diff fix_rings id (box_to_path (draw_area t)) (box_to_path (tile_area t)) ms = Ok None -> child_result P cs t []
| cr_result ms id f : match_coasts cut (tile_area t) (draw_area t) cs = Ok (Some ms) -> ms <> [] -> tz t = 10%N -> tile_to_key t 0 = Ok id ->
    finalize_tile cut diff fix_rings id (box_to_path (draw_area t)) (box_to_path (tile_area t)) ms = Ok (Some f) -> child_result P cs t [inl (t, f)].

Section Induction.
Variable gs : list ctask.
Hypothesis NE : no_exception cut diff fix_rings gs.
Variable P : tile -> list coast -> list entry -> Prop.
Hypothesis HP : forall t cs lss, (4 <= tz t <= 9)%N -> valid_tile t -> Forall2 (child_result P cs) (direct_children t) lss -> P t cs (concat lss).
Lemma task_induction_k : forall k t cs l, tz t = (9 - N.of_nat k)%N -> (4 <= tz t)%N -> (k <= 5)%nat -> valid_tile t ->
  task_reached cut diff fix_rings gs (t, cs) -> gives proc (OTask (t, cs)) l -> P t cs l.
Proof.
  induction k as [k IH] using lt_wf_ind; intros t cs l Hk H4 H5 Hv R G.
  destruct (task_split gs t cs l NE R G) as (lss & F & -> & RT). apply HP; [lia|exact Hv|].
  assert (HC : forall ch l, In ch (direct_children t) -> child_gives cs ch l -> child_result P cs ch l).
  { clear F G. intros ch l Hc (os & ls & Ep & Fg & El). pose proof Hc as Hc'. apply in_children in Hc' as (i & Hi & Ei).
    assert (Hvc : valid_tile ch) by (rewrite Ei; now apply valid_child). assert (Hzc : tz ch = (tz t + 1)%N) by (rewrite Ei; reflexivity). clear Ei Hi i.
    pose proof (child_cases cs ch os ltac:(lia) Hvc Ep) as CC.
    inversion CC as [Em|Em|ms Em Hm Hz1|ms id Em Hm Hz1 Hid Hf|ms id f Em Hm Hz1 Hid Hf]; subst os.
    - inversion Fg. subst. now apply cr_dirt.
    - pose proof (gives_one _ _ _ Fg El) as G. inversion G. subst. now apply cr_sea.
    - pose proof (gives_one _ _ _ Fg El) as G. apply (cr_task P cs ch ms l Em Hm Hz1). destruct k as [|k]; [lia|].
      apply (IH k ltac:(lia)); [lia..|exact Hvc| |exact G]. apply (RT ch [OTask (ch, ms)] ms Hc Ep). left. reflexivity.
    - inversion Fg. subst. apply (cr_none P cs ch ms id); auto. lia.
    - pose proof (gives_one _ _ _ Fg El) as G. inversion G. subst. apply (cr_result P cs ch ms id f); auto. lia. }
  clear -F HC. revert F HC. generalize (direct_children t). intros ts F. induction F as [|ch l ts lss H F IH]; intros HC; constructor.
  - apply HC; [left; reflexivity|exact H].
  - apply IH. intros c l' Hc. apply HC. right. exact Hc.
Qed.
Lemma task_induction t cs l : (4 <= tz t <= 9)%N -> valid_tile t -> task_reached cut diff fix_rings gs (t, cs) -> gives proc (OTask (t, cs)) l -> P t cs l.
Proof. intros Hz. apply (task_induction_k (N.to_nat (9 - tz t))); lia. Qed.
End Induction.

(** ** the tiles *)
Definition entry_ok (e : entry) : Prop :=
  valid_tile (etile e) /\ match e with inl (v, f) => tz v = 10%N /\ sea_feature v f /\
    exists b s ps, diff b s <> [] /\ to_fixed_polygons [] (diff b s) = Ok ps /\ f_geom f = GPoly (fix_rings ps) | inr z => (5 <= tz z <= 10)%N end.
Definition good_entries (t : tile) (l : list entry) : Prop :=
  ForallOrdPairs (fun a b => ~ related a b) (map etile l) /\ Forall (fun e => covers t (etile e) /\ entry_ok e) l.

Lemma unrelated_children t i j a b : (i < 4)%N -> (j < 4)%N -> i <> j -> covers (child t i) a -> covers (child t j) b -> ~ related a b.
Proof.
  intros Hi Hj Hn Ha Hb [H|H].
  - apply Hn, (child_inj t); auto. apply covers_same_z; [|reflexivity]. apply (covers_chain _ _ b); [now apply (covers_trans _ a)|exact Hb|reflexivity].
  - apply Hn, (child_inj t); auto. apply covers_same_z; [|reflexivity]. apply (covers_chain _ _ a); [exact Ha|now apply (covers_trans _ b)|reflexivity].
Qed.

Lemma children_good t is lss : NoDup is -> (forall i, In i is -> (i < 4)%N) -> Forall2 good_entries (map (child t) is) lss -> good_entries t (concat lss) /\
  Forall (fun e => exists i, In i is /\ covers (child t i) (etile e)) (concat lss).
Proof.
  revert lss. induction is as [|i is IH]; intros lss ND HI F; cbn [map] in F; inversion F as [|? l ? lss' G F']; subst; cbn [concat].
  - split; [split; [apply FOP_nil|apply Forall_nil]|apply Forall_nil].
  - inversion ND as [|? ? Ni ND']; subst. destruct (IH lss' ND' (fun j Hj => HI j (or_intror Hj)) F') as [[I1 I2] I3]. destruct G as [G1 G2].
    assert (Hi : (i < 4)%N) by (apply HI; left; reflexivity).
    split; [split|].
    + rewrite map_app, fop_app. split; [exact G1|]. split; [exact I1|]. intros x y Hx Hy. apply in_map_iff in Hx as (ex & <- & Hx). apply in_map_iff in Hy as (ey & <- & Hy).
      destruct (proj1 (Forall_forall _ _) I3 _ Hy) as (j & Hj & Cj). apply (unrelated_children t i j); [exact Hi|apply HI; right; exact Hj|intros ->; contradiction| |exact Cj].
      apply (proj1 (proj1 (Forall_forall _ _) G2 _ Hx)).
    + apply Forall_app. split; [|exact I2]. eapply Forall_impl; [|exact G2]. intros e [H1 H2]. split; [|exact H2]. eapply covers_trans; [|exact H1]. now apply covers_child_parent.
    + apply Forall_app. split.
      * eapply Forall_impl; [|exact G2]. intros e [H1 _]. exists i. split; [left; reflexivity|exact H1].
      * eapply Forall_impl; [|exact I3]. intros e (j & Hj & Cj). exists j. split; [right; exact Hj|exact Cj].
Qed.

Lemma task_good gs : no_exception cut diff fix_rings gs -> forall t cs l, (4 <= tz t <= 9)%N -> valid_tile t ->
  task_reached cut diff fix_rings gs (t, cs) -> gives proc (OTask (t, cs)) l -> good_entries t l.
Proof.
  intros NE t cs l. apply (task_induction gs NE (fun t _ l => good_entries t l)). clear. intros t cs lss Hz Hv F.
  apply (children_good t [0; 1; 2; 3]%N lss); [repeat constructor; cbn; intuition discriminate|intros i Hi; repeat destruct Hi as [<-|Hi]; [reflexivity..|destruct Hi]|].
  cbn [map]. rewrite <- children_list. assert (HI : forall ch, In ch (direct_children t) -> valid_tile ch /\ (5 <= tz ch <= 10)%N).
  { intros ch Hc. apply in_children in Hc as (i & Hi & ->). split; [now apply valid_child|]. unfold child. cbn [tz]. lia. }
  revert F HI. generalize (direct_children t). clear. intros ts F. induction F as [|ch l ts lss C F IH]; intros HI; constructor; [|apply IH; intros ? ?; apply HI; right; assumption].
  destruct (HI ch (or_introl eq_refl)) as [Hv Hz]. clear -Hv Hz C. inversion C as [Em|Em|ms ? Em Hm Hz1 HP|ms id Em Hm Hz1 Hid Hf|ms id f Em Hm Hz1 Hid Hf]; subst.
  - split; [apply FOP_nil|apply Forall_nil].
  - split; [repeat constructor|]. apply Forall_cons; [|apply Forall_nil]. cbn [etile]. split; [apply covers_refl|]. split; [exact Hv|exact Hz].
  - exact HP.
  - split; [apply FOP_nil|apply Forall_nil].
  - split; [repeat constructor|]. apply Forall_cons; [|apply Forall_nil]. cbn [etile fst]. split; [apply covers_refl|]. split; [exact Hv|split; [exact Hz1|]].
    destruct (finalize_cases _ _ _ _ _ Hf) as (Hd & r & _ & [[_ E]|(_ & p & Hp & E)]); [discriminate E|]. injection E as ->. split; [|eauto 7].
    unfold sea_feature. cbn [f_id f_layer f_minz f_maxz f_meta f_geom]. repeat (split; [first [reflexivity|exact Hid]|]). eexists. reflexivity.
Qed.

Lemma unrelated_sym x y : ~ related x y -> ~ related y x.
Proof. unfold related. tauto. Qed.
Lemma outcome_good polys l : no_exception cut diff fix_rings (coast_tasks polys) -> outcome proc (map OTask (coast_tasks polys)) l ->
  ForallOrdPairs (fun a b => ~ related a b) (map etile l) /\ Forall entry_ok l.
Proof.
  intros NE (ls & F & HP).
  assert (H : forall gs ls, (forall g, In g gs -> In g (coast_tasks polys)) -> ForallOrdPairs (fun a b => ~ related a b) (map fst gs) -> Forall2 (gives proc) (map OTask gs) ls ->
     ForallOrdPairs (fun a b => ~ related a b) (map etile (concat ls)) /\ Forall entry_ok (concat ls) /\ Forall (fun e => exists t, In t (map fst gs) /\ covers t (etile e)) (concat ls)).
  { clear -NE. induction gs as [|[t cs] gs IH]; intros ls HI U F; cbn [map] in F; inversion F as [|? l ? ls' G F']; subst; cbn [concat].
    - split; [apply FOP_nil|]. split; apply Forall_nil.
    - cbn [map fst] in U. inversion U as [|? ? U1 U2]; subst. destruct (IH ls' (fun g Hg => HI g (or_intror Hg)) U2 F') as (I1 & I2 & I3). clear IH.
      destruct (tasks_of polys (t, cs) (HI _ (or_introl eq_refl))) as (Hv & Hz & _). cbn [fst] in Hv, Hz.
      destruct (task_good _ NE t cs l ltac:(lia) Hv (tr_first _ _ _ _ _ (HI _ (or_introl eq_refl))) G) as [G1 G2]. split; [|split].
      + rewrite map_app, fop_app. split; [exact G1|]. split; [exact I1|]. intros x y Hx Hy. apply in_map_iff in Hx as (ex & <- & Hx). apply in_map_iff in Hy as (ey & <- & Hy).
        destruct (proj1 (Forall_forall _ _) I3 _ Hy) as (s & Hs & Cs). pose proof (proj1 (proj1 (Forall_forall _ _) G2 _ Hx)) as Ct.
        pose proof (proj1 (Forall_forall _ _) U1 _ Hs) as Ns. cbn beta in Ns.
        assert (Hzs : tz s = 4%N). { apply in_map_iff in Hs as (g & <- & Hg). apply (tasks_of polys g). apply HI. right. exact Hg. }
        intros [R|R]; apply Ns; left.
        * apply (covers_chain _ _ (etile ey)); [now apply (covers_trans _ (etile ex))|exact Cs|lia].
        * apply (covers_chain _ _ (etile ex)); [exact Ct|now apply (covers_trans _ (etile ey))|lia].
      + apply Forall_app. split; [|exact I2]. eapply Forall_impl; [|exact G2]. intros e [_ He]. exact He.
      + cbn [map fst]. apply Forall_app. split.
        * eapply Forall_impl; [|exact G2]. intros e [He _]. exists t. split; [left; reflexivity|exact He].
        * eapply Forall_impl; [|exact I3]. intros e (s & Hs & Cs). exists s. split; [right; exact Hs|exact Cs]. }
  destruct (H _ ls (fun g Hg => Hg) ltac:(unfold coast_tasks; rewrite map_map; cbn [fst]; rewrite map_id; apply range_unrelated) F) as (H1 & H2 & _). split.
  - apply (fop_perm (fun a b => ~ related a b) unrelated_sym (map etile (concat ls))); [|exact H1]. apply Permutation_map. symmetry. exact HP.
  - rewrite HP. exact H2.
Qed.
End Run.
