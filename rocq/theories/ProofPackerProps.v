(** Indexed packs: from the buffer theorem to features. *)
From Coq Require Import Permutation.
From Verif Require Import Base BaseProof ModelTile SpecTile ProofTile ModelCodec ProofCodec ModelGeom SpecGeom ModelFeature SpecFeature ProofFeature
  ModelQuadTree SpecQuadTree ProofQuadTree ProofQuadWalk ProofQuadOrder ModelPack SpecPack ProofPack
  ModelPacker SpecPacker ProofBestTile ProofPacker ProofPackerTop.
Open Scope N_scope.

Lemma box_fold_wf ps : forall b, ps <> [] -> box_wf (fold_left box_add ps b).
Proof.
  destruct ps as [|p ps]; [congruence|]. intros b _. cbn [fold_left].
  pose proof (fold_box_grow ps (box_add b p)) as H. cbv zeta in H. unfold box_wf, box_add in *. cbn [bminx bminy bmaxx bmaxy] in *. lia.
Qed.
Lemma serialize_box_wf enc mk fast f s : serialize_feature enc mk fast f = Ok s -> box_wf (bounding_box (f_geom f)).
Proof.
  unfold serialize_feature. intros H. apply bind_ok in H. destruct H as (h & HH & H). unfold feature_header in HH.
  apply bind_ok in HH. destruct HH as (x1 & X1 & HH). apply bind_ok in HH. destruct HH as (x2 & X2 & _).
  unfold bounding_box in *. destruct (f_geom f) as [|ps|ls|ps].
  - unfold box_wf. cbn. lia.
  - destruct ps; [discriminate X2|]. now apply box_fold_wf.
  - destruct (concat ls); [discriminate X2|]. now apply box_fold_wf.
  - destruct (flat_map poly_points ps); [discriminate X2|]. now apply box_fold_wf.
Qed.

Lemma same_but_plain f f' : same_but f f' (f_geom f) -> plain_feature f -> plain_feature f'.
Proof.
  intros (E1 & E2 & E3 & E4 & _ & E6) [(H1 & H2 & H3 & H4 & H5) HP]. unfold plain_feature, feature_ok. now rewrite E1, E2, E3, E4, E6.
Qed.

Lemma Forall2_perm {A B} (R : A -> B -> Prop) : forall l1 l2, Permutation l1 l2 -> forall m2, Forall2 R l2 m2 ->
  exists m1, Permutation m1 m2 /\ Forall2 R l1 m1.
Proof.
  induction 1 as [|x l1 l2 P IH|x y l|l1 l2 l3 P1 IH1 P2 IH2]; intros m2 F.
  - inversion F; subst. exists []. split; constructor.
  - inversion F as [|? b ? m ? F']; subst. destruct (IH _ F') as (m1 & HP & HF). exists (b :: m1). split; [now constructor|]. now constructor.
  - inversion F as [|? b ? m ? F']; subst. inversion F' as [|? c ? m' ? F'']; subst. exists (c :: b :: m'). split; [constructor|]. repeat (constructor; auto).
  - destruct (IH2 _ F) as (m & HP & HF). destruct (IH1 _ HF) as (m1 & HP1 & HF1). exists m1. split; [now transitivity m | assumption].
Qed.
Lemma Forall2_flip {A B} (R : A -> B -> Prop) l m : Forall2 R l m -> Forall2 (fun b a => R a b) m l.
Proof. induction 1; constructor; auto. Qed.
Lemma Forall2_trans {A B C} (P : A -> B -> Prop) (Q : B -> C -> Prop) l m n : Forall2 P l m -> Forall2 Q m n ->
  Forall2 (fun a c => exists b, P a b /\ Q b c) l n.
Proof. intros F. revert n. induction F; intros n G; inversion G; subst; constructor; eauto. Qed.
Lemma Forall2_concat {A B} (R : A -> B -> Prop) l m : Forall2 (Forall2 R) l m -> Forall2 R (concat l) (concat m).
Proof. induction 1; [constructor|]. cbn [concat]. now apply Forall2_app. Qed.
Lemma Forall2_mono {A B} (R S : A -> B -> Prop) l m : (forall a b, R a b -> S a b) -> Forall2 R l m -> Forall2 S l m.
Proof. intros H. induction 1; constructor; auto. Qed.
Lemma Forall2_with {A B} (R : A -> B -> Prop) (P : A -> Prop) l m : Forall P l -> Forall2 R l m -> Forall2 (fun a b => P a /\ R a b) l m.
Proof. intros H F. revert H. induction F; intros H'; inversion H'; subst; constructor; auto. Qed.

(** the two input readings agree *)
Definition is_quad dec rd root (f : feature) (q : qfeature) : Prop :=
  plain_feature f /\ box_wf (bounding_box (f_geom f)) /\ same_but f (qf_feat q) (f_geom f) /\
  find_best_tile root (bounding_box (f_geom f)) = Ok (qf_tile q) /\ make_quad_key root (qf_tile q) = Ok (qf_key q) /\
  (exists s, deserialize_feature dec rd no_hints s = Ok (Some (qf_feat q))).

Lemma same_but_trans f f1 f2 : same_but f f1 (f_geom f) -> same_but f1 f2 (f_geom f) -> same_but f f2 (f_geom f).
Proof.
  intros (A1 & A2 & A3 & A4 & A5 & A6) (B1 & B2 & B3 & B4 & B5 & B6). unfold same_but. rewrite B1, B2, B3, B4, A1, A2, A3, A4. repeat (split; [reflexivity|]). split; [|assumption]. now rewrite B5.
Qed.
Lemma stored_quad dec rd root f s q : plain_feature f -> stored_as dec f s -> is_input dec rd root s q -> is_quad dec rd root f q.
Proof.
  intros HP (HB & f1 & enc & mk & fast & SB1 & HC & HS) (D & HT & HK).
  pose proof (same_but_plain _ _ SB1 HP) as [HO HPr].
  destruct (feature_roundtrip enc dec mk rd fast f1 s HO HC HPr HS HB) as (f' & D' & SB & _).
  rewrite D in D'. injection D' as D'. subst f'. split; [assumption|]. assert (EG : f_geom f1 = f_geom f) by apply SB1. split; [rewrite <- EG; eapply serialize_box_wf; eauto|]. split; [rewrite EG in SB; exact (same_but_trans _ _ _ SB1 SB)|].
  destruct SB as (_ & _ & _ & _ & _ & E). rewrite E, EG in HT. split; [assumption|]. split; [assumption|]. eauto.
Qed.

Lemma filter_length_le' {A} (P : A -> bool) l : (length (filter P l) <= length l)%nat.
Proof. induction l as [|x l IH]; [reflexivity|]. cbn [filter length]. destruct (P x); cbn [length]; lia. Qed.

Section P.
Context (enc : meta -> option N) (dec : N -> res meta) (mk : line -> bytes) (rd : mask_reader)
        (srt : list qfeature -> list qfeature) (root : tile).
Hypothesis Hsrt : sorts_by_key srt.
Hypothesis Hcod : coder_ok enc dec.

Lemma inputs_quads packs fss strss qs :
  Forall2 (pack_holds dec) packs fss -> Forall plain_feature (concat fss) ->
  Forall2 unpacked packs strss -> Forall2 (is_input dec rd root) (concat strss) qs ->
  Forall2 (is_quad dec rd root) (concat fss) qs.
Proof.
  intros H1 H2 H3 H4.
  assert (H5 : Forall2 (Forall2 (stored_as dec)) fss strss).
  { clear - H1 H3. revert strss H3. induction H1 as [|p fs packs fss (strs & rest & E & F) H1 IH]; intros strss H3; inversion H3 as [|? ss ? sss (r & E') F']; subst; constructor; auto.
    rewrite E in E'. apply Ok_inj in E'. injection E' as <- <-. assumption. }
  apply Forall2_concat in H5. apply (Forall2_with _ plain_feature) in H5; [|assumption].
  pose proof (Forall2_trans _ _ _ _ _ H5 H4) as H6. eapply Forall2_mono; [|exact H6]. intros f q (s & [HP HS] & HI). eapply stored_quad; eauto.
Qed.

Lemma quad_reads f q s : is_quad dec rd root f q -> ser enc mk q s -> blen s < 2 ^ 32 -> reads_as dec rd f s.
Proof.
  intros (HP & _ & SB & _) HS HB. pose proof (same_but_plain _ _ SB HP) as [HO HPr].
  destruct (feature_roundtrip enc dec mk rd false (qf_feat q) s HO Hcod HPr HS HB) as (f' & D & SB' & _).
  exists f'. split; [assumption|]. destruct SB as (A1 & A2 & A3 & A4 & A5 & A6), SB' as (B1 & B2 & B3 & B4 & B5 & B6).
  unfold same_but. rewrite B1, B2, B3, B4, B6, A1, A2, A3, A4, A6. repeat (split; [reflexivity|]). split; [|reflexivity]. now rewrite B5.
Qed.

Theorem packer_keeps packs fss B : tz root <= 20 -> valid_tile root ->
  Forall2 (pack_holds dec) packs fss -> Forall plain_feature (concat fss) ->
  pack_features_quad enc dec mk rd srt root packs = Ok B -> blen B < 2 ^ 30 ->
  feature_pack_valid B = true /\
  exists fs out rest, Permutation fs (concat fss) /\ unpack_features B = Ok (out, rest) /\ Forall2 (reads_as dec rd) fs out.
Proof.
  intros Hz Hv HP HF H HB. destruct (packed enc dec mk rd srt root Hsrt packs B Hz Hv H HB)
    as (strss & qs & FU & FI & _ & _ & (sel & out & rest & U & PS & SR & SZ) & _ & V).
  split; [assumption|]. pose proof (inputs_quads _ _ _ _ HP HF FU FI) as FQ.
  destruct (Forall2_perm _ _ _ PS _ (Forall2_flip _ _ _ FQ)) as (fs & Pf & Ff).
  exists fs, out, rest. split; [assumption|]. split; [assumption|].
  apply Forall2_flip in Ff. pose proof (Forall2_trans _ _ _ _ _ Ff (Forall2_flip _ _ _ (Forall2_with _ _ _ _ SZ (Forall2_flip _ _ _ SR)))) as F.
  eapply Forall2_mono; [|exact F]. cbv beta. intros f s (q & Hq & Hb & Hs). eapply quad_reads; [eassumption..|]. lia.
Qed.

Lemma filter_split {A} (P : A -> bool) l : Permutation (filter P l ++ filter (fun x => negb (P x)) l) l.
Proof. induction l as [|x l IH]; [constructor|]. cbn [filter]. destruct (P x); cbn [negb app]; [now constructor|]. rewrite <- Permutation_middle. now constructor. Qed.

Lemma related_in_root b q f : tz root <= 20 -> valid_tile root -> tz q <= 20 -> box_wf (bounding_box (f_geom f)) ->
  related root q -> find_best_tile root (bounding_box (f_geom f)) = Ok b -> touches (bounding_box (f_geom f)) (tile_area q) -> related b q.
Proof.
  intros Hz Hv Hq HW [HR|HR] HT Ht.
  - destruct (best_tile_ok root (bounding_box (f_geom f)) Hz Hv HW) as (b' & E & _ & _ & _ & HA).
    { eapply touch_covers; eauto. }
    rewrite E in HT. apply Ok_inj in HT. subst b'. now apply HA.
  - apply best_tile_in_root in HT; [|assumption..]. right. eapply covers_trans; [exact HR | apply HT].
Qed.

(** [s] was written by the packer for [f]: metadata may be permuted *)
Definition written (f : feature) (s : bytes) : Prop :=
  exists f', same_but f f' (f_geom f) /\ plain_feature f' /\ serialize_feature enc mk false f' = Ok s /\ blen s < 2 ^ 30.
Lemma written_reads f s : written f s -> reads_as dec rd f s.
Proof.
  intros (f1 & SB & [HO HPr] & HS & HB).
  destruct (feature_roundtrip enc dec mk rd false f1 s HO Hcod HPr HS ltac:(lia)) as (f' & D & SB' & _).
  exists f'. split; [assumption|]. destruct SB as (A1 & A2 & A3 & A4 & A5 & A6), SB' as (B1 & B2 & B3 & B4 & B5 & B6).
  unfold same_but. rewrite B1, B2, B3, B4, B6, A1, A2, A3, A4, A6. repeat (split; [reflexivity|]). split; [|reflexivity]. now rewrite B5.
Qed.

Theorem packer_written packs fss B : tz root <= 20 -> valid_tile root ->
  Forall2 (pack_holds dec) packs fss -> Forall plain_feature (concat fss) ->
  pack_features_quad enc dec mk rd srt root packs = Ok B -> blen B < 2 ^ 30 ->
  feature_pack_valid B = true /\
  exists fs out rest, Permutation fs (concat fss) /\ unpack_features B = Ok (out, rest) /\ Forall2 written fs out.
Proof.
  intros Hz Hv HP HF H HB. destruct (packed enc dec mk rd srt root Hsrt packs B Hz Hv H HB)
    as (strss & qs & FU & FI & _ & _ & (sel & out & rest & U & PS & SR & SZ) & _ & V).
  split; [assumption|]. pose proof (inputs_quads _ _ _ _ HP HF FU FI) as FQ.
  destruct (Forall2_perm _ _ _ PS _ (Forall2_flip _ _ _ FQ)) as (fs & Pf & Ff).
  exists fs, out, rest. split; [assumption|]. split; [assumption|].
  apply Forall2_flip in Ff. pose proof (Forall2_trans _ _ _ _ _ Ff (Forall2_flip _ _ _ (Forall2_with _ _ _ _ SZ (Forall2_flip _ _ _ SR)))) as F.
  eapply Forall2_mono; [|exact F]. cbv beta. intros f s (q & (HPl & _ & SB & _) & Hb & Hs). exists (qf_feat q). split; [assumption|]. split; [exact (same_but_plain _ _ SB HPl)|]. split; [exact Hs | lia].
Qed.

Theorem indexed_core packs fss B q : tz root <= 20 -> valid_tile root ->
  Forall2 (pack_holds dec) packs fss -> Forall plain_feature (concat fss) ->
  pack_features_quad enc dec mk rd srt root packs = Ok B -> blen B < 2 ^ 30 ->
  tz q <= 20 -> related root q ->
  exists out found missed, unpack_features_for root B q = Ok out /\
    Permutation (found ++ missed) (concat fss) /\ Forall2 written found out /\
    Forall (fun f => f_minz f <= N.max (tz root) (tz q) /\ node_related root f q) found /\
    Forall (fun f => ~ must_find root q f) missed.
Proof.
  intros Hz Hv HP HF H HB Hq HR. destruct (packed enc dec mk rd srt root Hsrt packs B Hz Hv H HB)
    as (strss & qs & FU & FI & _ & _ & (sel0 & out0 & rest & U & PS0 & SR0 & SZ) & HX & _).
  destruct (HX q Hq) as (sel & out & E & PS & SR). clear HX.
  pose proof (inputs_quads _ _ _ _ HP HF FU FI) as FQ.
  assert (HS : Forall (fun q => forall s, ser enc mk q s -> blen s < 2 ^ 30) qs).
  { apply Forall_forall. intros x Hx s Hs. apply (Permutation_in _ (Permutation_sym PS0)) in Hx. clear - SR0 SZ Hx Hs.
    induction SR0 as [|a b l m R F IH]; [destruct Hx|]. inversion SZ; subst. destruct Hx as [->|Hx]; [|now apply IH].
    unfold ser in *. rewrite R in Hs. apply Ok_inj in Hs. now subst. }
  set (P := fun x => (N.of_nat (lvl root x) <=? N.max (tz root) (tz q) - tz root) && relatedb (qf_tile x) q) in *.
  destruct (Forall2_perm (fun b a => is_quad dec rd root a b) (sel ++ filter (fun x => negb (P x)) qs) qs) with (m2 := concat fss) as (fs & Pf & Ff).
  { rewrite PS. apply filter_split. }
  { now apply Forall2_flip. }
  apply Forall2_app_inv_l in Ff. destruct Ff as (found & missed & F1 & F2 & ->).
  exists out, found, missed. split; [assumption|]. split; [assumption|].
  assert (Hsel : Forall (fun x => P x = true /\ forall s, ser enc mk x s -> blen s < 2 ^ 30) sel).
  { apply Forall_forall. intros x Hx. apply (Permutation_in _ PS) in Hx. apply filter_In in Hx. rewrite Forall_forall in HS. split; [apply Hx | now apply HS]. }
  assert (Hmin : forall f x, is_quad dec rd root f x -> (N.of_nat (lvl root x) <=? N.max (tz root) (tz q) - tz root) = (f_minz f <=? N.max (tz root) (tz q))).
  { intros f x (_ & _ & (_ & _ & M & _) & _). unfold lvl. rewrite M. clear. lia. }
  split; [|split].
  - pose proof (Forall2_trans _ _ _ _ _ (Forall2_flip _ _ _ (Forall2_with _ _ _ _ Hsel F1)) SR) as F. cbv beta in F.
    eapply Forall2_mono; [|exact F]. intros f s (x & [[_ Hb] Hx] & Hs). specialize (Hb s Hs). destruct Hx as (HP1 & _ & SB & _). exists (qf_feat x). split; [assumption|]. split; [eapply same_but_plain; eassumption|]. now split.
  - pose proof (Forall2_flip _ _ _ (Forall2_with _ _ _ _ Hsel F1)) as F. clear - F Hmin. induction F as [|f x fs xs [[Hx _] HQ] F IH]; constructor; [|assumption].
    unfold P in Hx. rewrite (Hmin _ _ HQ) in Hx. apply andb_prop in Hx. destruct Hx as [Hx1 Hx2]. split; [lia|].
    destruct HQ as (_ & _ & _ & HT & _). exists (qf_tile x). split; [assumption | now apply relatedb_spec].
  - assert (Hnot : Forall (fun x => P x = false) (filter (fun x => negb (P x)) qs)).
    { apply Forall_forall. intros x Hx. apply filter_In in Hx. destruct Hx as [_ Hx]. now apply negb_true_iff in Hx. }
    pose proof (Forall2_flip _ _ _ (Forall2_with _ _ _ _ Hnot F2)) as F. clear - F Hmin Hz Hv Hq HR. induction F as [|f x fs xs [Hx HQ] F IH]; constructor; [|assumption].
    intros [HM HT]. unfold P in Hx. rewrite (Hmin _ _ HQ) in Hx. replace (f_minz f <=? N.max (tz root) (tz q)) with true in Hx by lia. cbn [andb] in Hx.
    destruct HQ as (_ & HW & _ & HB & _). pose proof (related_in_root _ _ _ Hz Hv Hq HW HR HB HT) as HRel. apply relatedb_spec in HRel. congruence.
Qed.

Theorem indexed_finds packs fss B q : tz root <= 20 -> valid_tile root ->
  Forall2 (pack_holds dec) packs fss -> Forall plain_feature (concat fss) ->
  pack_features_quad enc dec mk rd srt root packs = Ok B -> blen B < 2 ^ 30 ->
  tz q <= 20 -> related root q ->
  exists out found missed, unpack_features_for root B q = Ok out /\
    Permutation (found ++ missed) (concat fss) /\ Forall2 (reads_as dec rd) found out /\
    Forall (fun f => f_minz f <= N.max (tz root) (tz q) /\ node_related root f q) found /\
    Forall (fun f => ~ must_find root q f) missed.
Proof.
  intros Hz Hv HP HF H HB Hq HR. destruct (indexed_core packs fss B q Hz Hv HP HF H HB Hq HR) as (out & found & missed & E & P & F & R).
  exists out, found, missed. split; [assumption|]. split; [assumption|]. split; [|assumption].
  eapply Forall2_mono; [|exact F]. intros f s. apply written_reads.
Qed.

(** ** Success *)
Definition packable (q : qfeature) : Prop := exists s, ser enc mk q s /\ 32 <= blen s.

Lemma append_span_total : forall g buf, Forall packable g -> exists b, append_span enc mk buf g = Ok b.
Proof.
  induction g as [|q g IH]; intros buf H; cbn [append_span]; [eauto|]. inversion H as [|? ? (s & S & L) HF]; subst.
  unfold ser in S. rewrite S. cbn [bind]. unfold append_feature. replace (32 <=? blen s) with true by lia. cbn [verify bind]. now apply IH.
Qed.
Lemma append_runs_total : forall gs buf, Forall (fun g => g <> [] /\ Forall packable g) gs -> exists b es, append_runs enc mk buf gs = Ok (b, es).
Proof.
  induction gs as [|g gs IH]; intros buf H; cbn [append_runs]; [eauto|]. inversion H as [|? ? [HN HG] HF]; subst.
  destruct g as [|x g]; [congruence|]. destruct (append_span_total (x :: g) buf HG) as (b & ->). cbn [bind].
  destruct (IH b HF) as (b' & es & ->). cbn [bind]. eauto.
Qed.

Lemma runs_length : forall l, (length (runs l) <= length l)%nat.
Proof.
  induction l as [|x l IH]; [reflexivity|]. cbn [runs]. destruct (runs l) as [|[|y g] gs]; cbn [length] in *; [lia | lia |].
  destruct (bytes_eqb _ _); cbn [length]; lia.
Qed.

Lemma append_levels_total : forall ls buf, Forall (Forall (good root)) ls -> Forall (Forall packable) ls ->
  Forall (fun l => N.of_nat (length l) < 2 ^ 32) ls ->
  exists b ts, append_levels enc mk srt root buf ls = Ok (b, ts).
Proof.
  induction ls as [|l ls IH]; intros buf HG HK HL; cbn [append_levels]; [eauto|].
  inversion HG as [|? ? G1 G2]; subst. inversion HK as [|? ? K1 K2]; subst. inversion HL as [|? ? L1 L2]; subst.
  destruct l as [|x l].
  { destruct (IH buf G2 K2 L2) as (b & ts & ->). cbn [bind]. eauto. }
  set (l' := x :: l) in *. destruct (Hsrt l') as [HP _]. destruct (runs_ok (srt l')) as [R1 R2].
  destruct (append_runs_total (runs (srt l')) buf) as (b & es & E).
  { assert (K : Forall packable (concat (runs (srt l')))) by (rewrite R1; eapply Permutation_Forall; [symmetry; exact HP | assumption]).
    clear - K R2. revert K. induction R2 as [|g gs Hg HF IH]; intros K; [constructor|]. cbn [concat] in K. apply Forall_app in K. destruct K as [K1 K2].
    constructor; [|auto]. split; [|assumption]. intros ->. exact Hg. }
  rewrite E. cbn [bind]. apply append_runs_inv in E. destruct E as (its & EG & EE & HI & HPl & ->).
  destruct (level_facts0 enc mk srt root Hsrt l' its EG HI G1) as (_ & HC & _ & HN & _ & _).
  assert (HE : entries_ok es).
  { split; [|split].
    - rewrite <- EE, map_map. exact HN.
    - rewrite <- EE, Forall_map. rewrite Forall_forall in HI, HC |- *. intros i Hi. specialize (HI i Hi). specialize (HC i Hi). unfold item_tile in HC.
      destruct HI as (_ & _ & HS1 & _). split; [|split; lia].
      assert (HO : Forall (fun i => qi_off (it_e i) < 2 ^ 32) its).
      { clear - HPl. revert HPl. generalize (blen buf). induction its as [|j its IH]; intros p HPl; [constructor|]. cbn [placed] in HPl. destruct HPl as [H1 H2].
        constructor; [rewrite H1; apply N.mod_lt; discriminate | eapply IH; exact H2]. }
      rewrite Forall_forall in HO. now apply HO.
    - rewrite total_size_ones.
      + rewrite <- EE, map_length. rewrite <- (map_length it_g its), EG. pose proof (runs_length (srt l')). rewrite (Permutation_length HP) in H. lia.
      + rewrite <- EE, Forall_map. eapply Forall_impl; [|exact HI]. intros i (_ & _ & H & _). exact H. }
  destruct (proj2 (make_quad_tree_ok_iff root es HE)) as (t & ->).
  { rewrite <- EE, Forall_map. eapply Forall_impl; [|exact HC]. intros i [H _]. exact H. }
  cbn [bind]. destruct (IH (buf ++ items_bytes its) G2 K2 L2) as (b' & ts & ->). cbn [bind]. eauto.
Qed.

Lemma serialize_same e1 m1 b1 e2 m2 b2 f f' s : same_but f f' (f_geom f) -> feature_ok f -> serialize_feature e1 m1 b1 f = Ok s ->
  exists s', serialize_feature e2 m2 b2 f' = Ok s'.
Proof.
  intros (E1 & E2 & E3 & E4 & _ & E6) _ H. unfold serialize_feature, feature_header in *. rewrite E3, E4, E2, E6.
  apply bind_ok in H. destruct H as (h & HH & H). rewrite HH. cbn [bind]. apply bind_ok in H. destruct H as (g & -> & _). cbn [bind]. eauto.
Qed.

Lemma read_inputs_total n : tz root <= 20 -> valid_tile root -> (n = N.to_nat (21 - tz root))%nat ->
  forall fs strs qs0, Forall2 (stored_as dec) fs strs -> Forall (fits enc mk root) fs ->
  exists qs, read_inputs dec rd root strs (by_level root n 0 qs0) = Ok (by_level root n 0 (qs0 ++ qs)) /\
    Forall (good root) qs /\ Forall packable qs /\ length qs = length fs.
Proof.
  intros Hz Hv ->. intros fs strs qs0 F. revert qs0. induction F as [|f s fs strs HS F IH]; intros qs0 HF.
  - exists []. rewrite app_nil_r. repeat split; constructor.
  - inversion HF as [|? ? Hf HF']; subst. destruct Hf as (HP & HM & HT & H32). destruct HS as (HB & f1 & e & m & fast & SB1 & HC & HS).
    pose proof (same_but_plain _ _ SB1 HP) as [HO HPr]. assert (EG1 : f_geom f1 = f_geom f) by apply SB1.
    destruct (feature_roundtrip e dec m rd fast f1 s HO HC HPr HS HB) as (f' & D & SB0 & _). pose proof SB0 as SB. rewrite EG1 in SB. apply (same_but_trans _ _ _ SB1) in SB.
    assert (HWf : box_wf (bounding_box (f_geom f))) by (rewrite <- EG1; exact (serialize_box_wf _ _ _ _ _ HS)).
    destruct (best_tile_ok root (bounding_box (f_geom f)) Hz Hv HWf HT) as (b & Eb & Cb & Zb & _).
    assert (Hlt : b = b) by reflexivity.
    cbn [read_inputs]. unfold read_input. rewrite D. cbn [bind]. pose proof SB as (_ & _ & SM & _ & _ & SG). rewrite SG, Eb. cbn [bind].
    rewrite make_quad_key_ok by (assumption || lia). cbn [bind].
    set (q := QF (key_of_tile root b) b f').
    destruct (put_at_ok root q (N.to_nat (N.max (tz root) (f_minz f') - tz root)) (N.to_nat (21 - tz root)) 0 qs0) as (r & Er).
    { reflexivity. } { rewrite SM. lia. }
    rewrite Er. cbn [bind]. apply put_at_level in Er; [|reflexivity]. destruct Er as [_ ->].
    destruct (IH (qs0 ++ [q]) HF') as (qs & E & G & K & L). exists (q :: qs). rewrite E, <- app_assoc. split; [reflexivity|].
    split; [constructor; [|assumption]; repeat split; try apply Cb; assumption|]. split; [|cbn [length]; now f_equal].
    constructor; [|assumption]. destruct (serialize_same e m fast enc mk false f1 f' s SB0 HO HS) as (s' & Es). exists s'. split; [exact Es|]. eapply H32; eauto.
Qed.

Lemma read_packs_total : tz root <= 20 -> valid_tile root ->
  forall packs fss qs0 k, Forall2 (pack_holds dec) packs fss -> Forall (fits enc mk root) (concat fss) ->
  exists qs, read_packs dec rd root packs (by_level root (N.to_nat (21 - tz root)) 0 qs0) k =
      Ok (by_level root (N.to_nat (21 - tz root)) 0 (qs0 ++ qs), k + N.of_nat (length qs)) /\
    Forall (good root) qs /\ Forall packable qs /\ length qs = length (concat fss).
Proof.
  intros Hz Hv packs fss qs0 k F. revert qs0 k. induction F as [|p fs packs fss (strs & rest & U & FS) F IH]; intros qs0 k HF.
  - exists []. cbn [read_packs]. rewrite app_nil_r. replace (k + N.of_nat (@length qfeature [])) with k by (cbn; lia). repeat split; constructor.
  - cbn [concat] in HF. apply Forall_app in HF. destruct HF as [HF1 HF2]. cbn [read_packs]. rewrite U. cbn [bind].
    destruct (read_inputs_total _ Hz Hv eq_refl fs strs qs0 FS HF1) as (qs & -> & G & K & L). cbn [bind].
    destruct (IH (qs0 ++ qs) (k + N.of_nat (length strs)) HF2) as (qs' & E & G' & K' & L'). exists (qs ++ qs').
    rewrite E, <- app_assoc, app_length. pose proof (Forall2_len _ _ _ FS). split; [do 2 f_equal; lia|].
    split; [now apply Forall_app|]. split; [now apply Forall_app|]. cbn [concat]. rewrite app_length. lia.
Qed.

Theorem packer_succeeds packs fss : tz root <= 20 -> valid_tile root ->
  Forall2 (pack_holds dec) packs fss -> Forall (fits enc mk root) (concat fss) -> N.of_nat (length (concat fss)) < 2 ^ 32 ->
  exists B, pack_features_quad enc dec mk rd srt root packs = Ok B.
Proof.
  intros Hz Hv HP HF HN. unfold pack_features_quad. replace (tz root <=? 21) with true by lia. cbn [verify bind].
  set (nl := N.to_nat (21 - tz root)).
  replace (repeat [] nl) with (by_level root nl 0 []).
  2:{ unfold by_level. cbn [filter]. generalize 0%nat. clear. induction nl as [|n IH]; intros k; [reflexivity|]. cbn [seq map repeat]. now rewrite (IH (S k)). }
  destruct (read_packs_total Hz Hv packs fss [] 0 HP HF) as (qs & E & G & K & L). fold nl in E. rewrite E. cbn [bind app].
  unfold pack_header. rewrite N.add_0_l. replace (N.of_nat (length qs) <? 2 ^ 32) with true by lia. cbn [verify bind].
  assert (Hin : forall l, In l (by_level root nl 0 qs) -> exists i, l = filter (fun q => (lvl root q =? i)%nat) qs).
  { intros l Hl. unfold by_level in Hl. apply in_map_iff in Hl. destruct Hl as (i & <- & _). eauto. }
  match goal with |- context [append_levels enc mk srt root ?h _] => destruct (append_levels_total (by_level root nl 0 qs) h) as (b & ts & ->) end.
  - apply Forall_forall. intros l Hl. destruct (Hin l Hl) as (i & ->). rewrite Forall_forall in *. intros q Hq. apply filter_In in Hq. apply G, Hq.
  - apply Forall_forall. intros l Hl. destruct (Hin l Hl) as (i & ->). rewrite Forall_forall in *. intros q Hq. apply filter_In in Hq. apply K, Hq.
  - apply Forall_forall. intros l Hl. destruct (Hin l Hl) as (i & ->). pose proof (filter_length_le' (fun q => (lvl root q =? i)%nat) qs). lia.
  - cbn [bind]. destruct (append_trees b ts). unfold append_packed. eauto.
Qed.
End P.

Theorem packed_again enc dec mk rd srt root : sorts_by_key srt -> coder_ok enc dec -> forall packs fss B,
  tz root <= 20 -> valid_tile root ->
  Forall2 (pack_holds dec) packs fss -> Forall plain_feature (concat fss) ->
  pack_features_quad enc dec mk rd srt root packs = Ok B -> blen B < 2 ^ 30 ->
  exists fs, Permutation fs (concat fss) /\ pack_holds dec B fs.
Proof.
  intros Hsrt Hc packs fss B Hz Hv HP HF H HB. destruct (packer_written enc dec mk rd srt root Hsrt packs fss B Hz Hv HP HF H HB) as (_ & fs & out & rest & PM & EU & FW).
  exists fs. split; [assumption|]. exists out, rest. split; [assumption|].
  eapply Forall2_mono; [|exact FW]. intros f str (f' & SB & _ & Es & Eb). split; [change (2 ^ 30) with 1073741824 in Eb; change (2 ^ 32) with 4294967296; lia|].
  exists f', enc, mk, false. auto.
Qed.
