(** Outcomes of the coastline import can be computed; every import has one. *)
From Coq Require Import Permutation.
From Verif Require Import Base BaseProof ModelTile SpecTile ProofTile ModelCodec ModelGeom SpecGeom ModelFeature ModelMvt ModelRender ModelPrepare ProofPrepare
  ModelQuadTree SpecQuadTree ProofQuadTree ModelPacker SpecPacker ProofBestTile SpecBqTree ProofBqQuery ModelBqTree SpecRender ProofRender ModelDrain SpecDrain ProofDrain ProofDrainRun
  ModelCoast SpecCoast ProofCoast ProofCoastRun ProofCoastFill ProofCoastClip.
Open Scope N_scope.

(** ** computing what a task gives *)
Section Give.
Context {G D Z : Type}.
Variable proc : G -> list (out G D Z).
Fixpoint give (k : nat) (o : out G D Z) : option (list (D + Z)) :=
  match o with
  | OResult d => Some [inl d]
  | OSea z => Some [inr z]
  | OTask g =>
      match k with
      | O => None
      | S k => (fix all (os : list (out G D Z)) := match os with
                | [] => Some []
                | o :: os' => match give k o, all os' with Some l, Some ls => Some (l ++ ls) | _, _ => None end
                end) (proc g)
      end
  end.
Fixpoint give_all (k : nat) (os : list (out G D Z)) : option (list (D + Z)) :=
  match os with
  | [] => Some []
  | o :: os' => match give k o, give_all k os' with Some l, Some ls => Some (l ++ ls) | _, _ => None end
  end.
Lemma give_task k g : give (S k) (OTask g) = give_all k (proc g).
Proof. cbn [give]. induction (proc g) as [|o os IH]; [reflexivity|]. cbn [give_all]. now rewrite IH. Qed.
Lemma give_gives : forall k o l, give k o = Some l -> gives proc o l.
Proof.
  induction k as [|k IH]; intros [g|d|z] l H; try (cbn [give] in H; injection H as <-; constructor); [discriminate H|]. rewrite give_task in H.
  assert (HA : forall os l, give_all k os = Some l -> exists ls, Forall2 (gives proc) os ls /\ l = concat ls).
  { clear H. induction os as [|o os IHo]; intros m H; cbn [give_all] in H; [injection H as <-; exists []; split; [constructor|reflexivity]|].
    destruct (give k o) as [lo|] eqn:Eo; [|discriminate H]. destruct (give_all k os) as [m'|]; [|discriminate H]. injection H as <-. destruct (IHo _ eq_refl) as (ls & F & ->).
    exists (lo :: ls). split; [constructor; [now apply IH|exact F]|reflexivity]. }
  destruct (HA _ _ H) as (ls & F & ->). now constructor.
Qed.
Lemma gives_det : forall o l, gives proc o l -> forall l', gives proc o l' -> l = l'.
Proof.
  fix IH 3. intros o l H. destruct H as [d|z|g ls F]; intros l' H'; inversion H' as [| |? ls' F']; subst; [reflexivity|reflexivity|]. f_equal. clear H'.
  revert ls' F'. induction F as [|o l os ls H F IHF]; intros ls' F'; inversion F' as [|? l1 ? ls1 H1 F1]; subst; [reflexivity|]. f_equal; [exact (IH _ _ H _ H1)|exact (IHF _ F1)].
Qed.
Lemma give_all_outcome k os l m : give_all k os = Some l -> outcome proc os m -> Permutation m l.
Proof.
  intros H (ls & F & HP). rewrite HP. clear HP m. revert ls l F H. induction os as [|o os IH]; intros ls l F H; cbn [give_all] in H; inversion F as [|? lo ? ls' Ho F']; subst; [injection H as <-; reflexivity|].
  destruct (give k o) as [l1|] eqn:Eo; [|discriminate H]. destruct (give_all k os) as [l2|] eqn:Es; [|discriminate H]. injection H as <-. cbn [concat].
  rewrite (gives_det _ _ Ho _ (give_gives _ _ _ Eo)). apply Permutation_app_head. exact (IH _ _ F' eq_refl).
Qed.
End Give.

(** ** every import has an outcome *)
Section Exists.
Variable cut : list line -> line -> res (list line).
Variable diff : line -> list line -> list pnode.
Variable fix_rings : list poly -> list poly.
Notation proc := (coast_proc cut diff fix_rings).
Lemma outs_tasks t cs g : (tz t < 20) -> valid_tile t -> In (OTask g) (proc (t, cs)) -> valid_tile (fst g) /\ tz (fst g) = tz t + 1 /\ tz (fst g) < 10.
Proof.
  intros Hz Hv H. unfold coast_proc, process_coastline in H. cbn [fst snd] in H. destruct (map_res (process_child cut diff fix_rings cs) (direct_children t)) as [oss| | |] eqn:E; cbn [bind] in H; try (destruct H; fail).
  apply in_concat in H as (os & Ho & Hg). apply map_res_Forall2 in E. destruct (Forall2_in_r _ _ _ _ E Ho) as (ch & Hc & Ep). cbn beta in Ep. apply in_children in Hc as (i & Hi & ->).
  pose proof (child_cases cut diff fix_rings cs (child t i) os ltac:(unfold child; cbn [tz]; lia) (valid_child t i Hi Hv) Ep) as CC.
  inversion CC; subst; cbn [In] in Hg; try (destruct Hg as [Hg|[]]; discriminate Hg); try contradiction. destruct Hg as [Hg|[]]. injection Hg as <-. cbn [fst].
  split; [now apply valid_child|]. split; [reflexivity|assumption].
Qed.
Lemma task_gives : forall k t cs, tz t = 9 - N.of_nat k -> (k <= 9)%nat -> valid_tile t -> exists l, gives proc (OTask (t, cs)) l.
Proof.
  induction k as [|k IH]; intros t cs Hk Hk9 Hv;
  (assert (HA : forall os, (forall g, In (OTask g) os -> exists l, gives proc (OTask g) l) -> exists ls, Forall2 (gives proc) os ls);
   [induction os as [|o os IHo]; intros H; [exists []; constructor|];
    destruct (IHo (fun g Hg => H g (or_intror Hg))) as (ls & F); assert (Ho : exists l, gives proc o l) by (destruct o; [apply H; left; reflexivity|eexists; constructor..]);
    destruct Ho as (l & Ho); exists (l :: ls); constructor; assumption|];
   destruct (HA (proc (t, cs))) as (ls & F); [|exists (concat ls); now constructor]);
  intros [t' cs'] Hg; destruct (outs_tasks t cs _ ltac:(lia) Hv Hg) as (Hv' & Hz' & L); cbn [fst] in *; [lia|]; apply IH; [lia|lia|exact Hv'].
Qed.
Lemma outcome_exists polys : exists l, outcome proc (map OTask (coast_tasks polys)) l.
Proof.
  assert (H : forall gs, (forall g, In g gs -> valid_tile (fst g) /\ tz (fst g) = 4) -> exists ls, Forall2 (gives proc) (map OTask gs) ls).
  { induction gs as [|[t cs] gs IH]; intros H; [exists []; constructor|]. destruct (IH (fun g Hg => H g (or_intror Hg))) as (ls & F).
    destruct (H (t, cs) (or_introl eq_refl)) as [Hv Hz]. cbn [fst] in *. destruct (task_gives 5 t cs) as (l & Hl); [lia|lia|exact Hv|]. exists (l :: ls). cbn [map]. constructor; assumption. }
  destruct (H (coast_tasks polys)) as (ls & F). { intros g Hg. destruct (tasks_of polys g Hg) as (H1 & H2 & _). split; assumption. }
  exists (concat ls). exists ls. split; [exact F|reflexivity].
Qed.

(** ** deciding that no exception occurs *)
Fixpoint calm (k : nat) (g : ctask) : bool :=
  match k with
  | O => false
  | S k => match process_coastline cut diff fix_rings g with
           | Ok os => forallb (fun o => match o with OTask g' => calm k g' | _ => true end) os
           | _ => false
           end
  end.
Lemma calm_no_exception k gs : forallb (calm k) gs = true -> no_exception cut diff fix_rings gs.
Proof.
  intros H g R. assert (HH : exists m, calm m g = true).
  { induction R as [g Hg|g os g' R (m & IH) E Ho].
    - exists k. rewrite forallb_forall in H. now apply H.
    - destruct m as [|m]; [discriminate IH|]. cbn [calm] in IH. rewrite E in IH. rewrite forallb_forall in IH. exists m. exact (IH _ Ho). }
  destruct HH as (m & Hm). destruct m as [|m]; [discriminate Hm|]. cbn [calm] in Hm. destruct (process_coastline cut diff fix_rings g) as [os| | |]; try discriminate Hm. exists os. reflexivity.
Qed.

(** ** following tasks down *)
Definition next_task (g : ctask) (t : tile) : option ctask :=
  match process_coastline cut diff fix_rings g with
  | Ok os => find (fun g' : ctask => tile_eqb (fst g') t) (flat_map (fun o => match o with OTask g' => [g'] | _ => [] end) os)
  | _ => None
  end.
Fixpoint descend (g : ctask) (ts : list tile) : option ctask :=
  match ts with
  | [] => Some g
  | t :: ts' => match next_task g t with Some g' => descend g' ts' | None => None end
  end.
Lemma descend_reached gs ts : forall g g', task_reached cut diff fix_rings gs g -> descend g ts = Some g' -> task_reached cut diff fix_rings gs g'.
Proof.
  induction ts as [|t ts IH]; intros g g' R H; cbn [descend] in H; [injection H as <-; exact R|].
  destruct (next_task g t) as [h|] eqn:E; [|discriminate H]. apply (IH h g'); [|exact H]. unfold next_task in E. destruct (process_coastline cut diff fix_rings g) as [os| | |] eqn:Ep; try discriminate E.
  apply find_some in E as [E _]. apply in_flat_map in E as (o & Ho & E). destruct o as [g1|d|z]; [|destruct E|destruct E]. destruct E as [<-|[]]. exact (tr_next _ _ _ _ _ _ _ R Ep Ho).
Qed.
End Exists.

(** ** the tree of the fully seaside tiles *)
Lemma covers_valid a b : covers a b -> valid_tile b -> valid_tile a.
Proof.
  intros (Hz & Hx & Hy) [Vx Vy]. unfold valid_tile. rewrite Hx, Hy. clear Hx Hy.
  assert (E : 2 ^ tz b = 2 ^ tz a * 2 ^ (tz b - tz a)) by (rewrite <- N.pow_add_r; f_equal; lia). rewrite E in *. clear E Hz.
  split; apply N.div_lt_upper_bound; try (apply N.pow_nonzero; discriminate); rewrite N.mul_comm; assumption.
Qed.
Definition small_tiles : list tile := flat_map (fun z => range_tiles (TBounds 0 0 (2 ^ z) (2 ^ z)) z) [0; 1; 2; 3; 4; 5; 6; 7; 8; 9].
Lemma small_count : N.of_nat (length small_tiles) <= 2 ^ 24.
Proof. vm_compute. discriminate. Qed.
Lemma sea_fits sea : Forall (fun t => tz t <= 10 /\ valid_tile t) sea -> tree_fits sea.
Proof.
  intros F l ND H. pose proof small_count as SC. assert (L : (length l <= length small_tiles)%nat); [|lia]. apply NoDup_incl_length; [exact ND|].
  intros t Ht. destruct (H t Ht) as (e & He & Ce & Ne). destruct (proj1 (Forall_forall _ _) F _ He) as [Hz Hv].
  assert (L : tz t <= 9). { destruct (N.eq_dec (tz t) (tz e)) as [E|E]; [destruct Ne; now apply covers_same_z|]. destruct Ce as [Ce _]. lia. }
  destruct (covers_valid _ _ Ce Hv) as [V1 V2]. unfold small_tiles. apply in_flat_map. exists (tz t). split.
  - assert (tz t = 0 \/ tz t = 1 \/ tz t = 2 \/ tz t = 3 \/ tz t = 4 \/ tz t = 5 \/ tz t = 6 \/ tz t = 7 \/ tz t = 8 \/ tz t = 9) as HH by lia. cbn [In]. intuition.
  - apply range_tiles_In. cbn [minx maxx miny maxy]. split; [reflexivity|]. split; split; try apply N.le_0_l; assumption.
Qed.
Lemma sea_entry sea : Forall (fun t => tz t <= 10 /\ valid_tile t) sea ->
  exists bytes v, seaside_entry sea = Ok bytes /\ bq_of_string bytes = Ok v /\ make_bq_tree sea = Ok v /\
    forall q, valid_tile q -> tz q <= 23 -> exists b, bq_contains v q = Ok b /\ (b = true <-> covered sea q).
Proof.
  intros F. assert (F' : Forall (fun t => tz t < 2 ^ 31 /\ valid_tile t) sea). { eapply Forall_impl; [|exact F]. intros t [H1 H2]. split; [|exact H2]. change (2 ^ 31) with 2147483648. lia. }
  destruct (contains_ok sea F' (sea_fits sea F)) as (v & E & H). destruct (stored_result sea F' (sea_fits sea F)) as (v' & E' & S). rewrite E in E'. apply Ok_inj in E'. subst v'.
  exists (bq_string v), v. unfold seaside_entry. rewrite E. split; [reflexivity|]. split; [exact S|]. split; [reflexivity|exact H].
Qed.
