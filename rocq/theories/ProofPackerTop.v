(** Indexed packs: the whole buffer. *)
From Coq Require Import Permutation.
From Verif Require Import Base BaseProof ModelTile SpecTile ProofTile ModelCodec ProofCodec ModelGeom SpecGeom ModelFeature SpecFeature ProofFeature
  ModelQuadTree SpecQuadTree ProofQuadTree ProofQuadWalk ProofQuadOrder ModelPack SpecPack ProofPack
  ModelPacker SpecPacker ProofBestTile ProofPacker.
Open Scope N_scope.

(** ** Full unpack *)
Lemma unpack_loop_plain bss rest : Forall (fun s => 0 < blen s < 2 ^ 64) bss ->
  unpack_loop (length bss) (flat_map (fun f => varint_enc (blen f) ++ f) bss ++ rest) = Ok (bss, rest).
Proof.
  induction 1 as [|f bss Hf HF IH]; [reflexivity|]. cbn [length unpack_loop flat_map]. rewrite <- !app_assoc.
  change (varint_enc (blen f) ++ f ++ ?x) with (repeat 0 0 ++ varint_enc (blen f) ++ f ++ x).
  rewrite next_size_some by lia. cbn [bind]. rewrite take_feature_app. cbn [bind]. rewrite IH. reflexivity.
Qed.

Lemma unpack_loop_nulls k bss rest : bss <> [] -> Forall (fun s => 0 < blen s < 2 ^ 64) bss ->
  unpack_loop (length bss) (repeat 0 k ++ flat_map (fun f => varint_enc (blen f) ++ f) bss ++ rest) = Ok (bss, rest).
Proof.
  intros HN HF. destruct bss as [|f bss]; [congruence|]. inversion HF; subst. cbn [length unpack_loop flat_map]. rewrite <- !app_assoc.
  rewrite next_size_some; [|assumption|rewrite app_length, repeat_length; lia]. cbn [bind]. rewrite take_feature_app. cbn [bind].
  rewrite unpack_loop_plain by assumption. reflexivity.
Qed.

Lemma unpack_loop_app a b : forall r, unpack_loop (a + b) r =
  do (x, r1) <- unpack_loop a r; do (y, r2) <- unpack_loop b r1; Ok (x ++ y, r2).
Proof.
  induction a as [|a IH]; intros r; cbn [plus unpack_loop bind].
  - destruct (unpack_loop b r) as [[y r2]| | |]; reflexivity.
  - destruct (next_size _ r) as [[s r1]| | |]; cbn [bind]; try reflexivity.
    destruct (take_feature s r1) as [[f r2]| | |]; cbn [bind]; try reflexivity.
    rewrite IH. destruct (unpack_loop a r2) as [[x r3]| | |]; cbn [bind]; try reflexivity.
    destruct (unpack_loop b r3) as [[y r4]| | |]; reflexivity.
Qed.

Lemma unpack_items its : Forall (fun i => it_b i <> [] /\ Forall (fun s => 0 < blen s < 2 ^ 64) (it_b i)) its -> forall k rest,
  exists r, unpack_loop (length (flat_map it_b its)) (repeat 0 k ++ items_bytes its ++ rest) = Ok (flat_map it_b its, r).
Proof.
  induction 1 as [|i its [Hn Hi] HF IH]; intros k rest; [cbn; eauto|].
  cbn [flat_map items_bytes]. fold (items_bytes its). rewrite app_length, unpack_loop_app. unfold span_bytes. rewrite <- !app_assoc.
  rewrite unpack_loop_nulls by assumption. cbn [bind]. destruct (IH 1%nat rest) as (r & E).
  change (varint_enc 0 ++ items_bytes its ++ rest) with (repeat 0 1 ++ items_bytes its ++ rest). rewrite E. cbn [bind]. eauto.
Qed.


Section Packing.
Context (enc : meta -> option N) (dec : N -> res meta) (mk : line -> bytes) (rd : mask_reader)
        (srt : list qfeature -> list qfeature) (root : tile).
Context (Hsrt : sorts_by_key srt).
Notation ser := (ser enc mk).
Notation item_ok := (item_ok enc mk).
Notation lvl := (lvl root).
Notation by_level := (by_level root).
Notation is_input := (is_input dec rd root).

(** a feature with its node *)
Definition good (q : qfeature) : Prop :=
  covers root (qf_tile q) /\ tz (qf_tile q) <= 20 /\ qf_key q = key_of_tile root (qf_tile q).

Definition level_rel (l : list qfeature) (its : list item) (t : bytes) : Prop :=
  match l with
  | [] => its = [] /\ t = []
  | _ => map it_g its = runs (srt l) /\ Forall item_ok its /\ make_quad_tree root (map it_e its) = Ok t
  end.
Fixpoint levels_at (p : N) (ls : list (list qfeature)) (itss : list (list item)) (ts : list bytes) : Prop :=
  match ls, itss, ts with
  | [], [], [] => True
  | l :: ls', its :: itss', t :: ts' =>
      level_rel l its t /\ placed p its /\ levels_at (p + blen (items_bytes its)) ls' itss' ts'
  | _, _, _ => False
  end.

Lemma append_levels_inv : forall ls buf b ts, append_levels enc mk srt root buf ls = Ok (b, ts) ->
  exists itss, levels_at (blen buf) ls itss ts /\ b = buf ++ flat_map items_bytes itss.
Proof.
  induction ls as [|l ls IH]; intros buf b ts H; cbn [append_levels] in H.
  - apply Ok_inj in H. injection H as <- <-. exists []. cbn. now rewrite app_nil_r.
  - destruct l as [|x l].
    + apply bind_ok in H. destruct H as ([b' ts'] & A & H). apply Ok_inj in H. injection H as <- <-.
      apply IH in A. destruct A as (itss & L & ->). exists ([] :: itss). cbn [levels_at level_rel placed items_bytes flat_map app].
      rewrite N.add_0_r. repeat split. assumption.
    + apply bind_ok in H. destruct H as ([b1 es] & R & H). apply bind_ok in H. destruct H as (t & T & H).
      apply bind_ok in H. destruct H as ([b' ts'] & A & H). apply Ok_inj in H. injection H as <- <-.
      apply append_runs_inv in R. destruct R as (its & G & E & HI & HP & ->).
      apply IH in A. destruct A as (itss & L & ->). rewrite blen_app in L. exists (its :: itss).
      cbn [levels_at]. split.
      * split; [|split; assumption]. cbn [level_rel]. split; [assumption|]. split; [assumption|]. now rewrite E.
      * cbn [flat_map]. now rewrite <- app_assoc.
Qed.

Fixpoint offsets_at (p : N) (ts : list bytes) (os : list N) : Prop :=
  match ts, os with
  | [], [] => True
  | t :: ts', o :: os' => o = (match t with [] => 0 | _ => p mod 2 ^ 32 end) /\ offsets_at (p + blen t) ts' os'
  | _, _ => False
  end.

Lemma append_trees_inv : forall ts buf b os, append_trees buf ts = (b, os) ->
  b = buf ++ concat ts /\ offsets_at (blen buf) ts os.
Proof.
  induction ts as [|t ts IH]; intros buf b os H; cbn [append_trees] in H.
  - injection H as <- <-. cbn. now rewrite app_nil_r.
  - destruct t as [|x t].
    + destruct (append_trees buf ts) as [b' os'] eqn:E. injection H as <- <-. apply IH in E. destruct E as [-> E].
      cbn [concat app offsets_at]. rewrite N.add_0_r. auto.
    + destruct (append_trees (buf ++ x :: t) ts) as [b' os'] eqn:E. injection H as <- <-. apply IH in E. destruct E as [-> E].
      cbn [concat offsets_at]. rewrite <- app_assoc. rewrite blen_app in E. auto.
Qed.

(** ** Facts about the items of a level *)
Lemma level_facts0 l its : map it_g its = runs (srt l) -> Forall item_ok its -> Forall good l ->
  Forall item_ok its /\
  Forall (fun i => covers root (item_tile i) /\ tz (item_tile i) <= 20) its /\
  StronglySorted (fun i j => z_le root (item_tile i) (item_tile j)) its /\ NoDup (map item_tile its) /\
  Permutation (flat_map it_g its) l /\ Forall (fun i => Forall (fun q => qf_tile q = item_tile i) (it_g i)) its.
Proof.
  intros EG HI HG. destruct (Hsrt l) as [HP HS].
  destruct (runs_ok (srt l)) as [R1 R2]. pose proof (runs_sorted (srt l) HS) as R3. rewrite <- EG in R1, R2, R3.
  assert (HG' : Forall (fun i => Forall good (it_g i)) its).
  { assert (HG' : Forall good (srt l)) by (eapply Permutation_Forall; [symmetry; exact HP | exact HG]).
    rewrite <- R1 in HG'. clear - HG'. induction its as [|i its IH]; [constructor|]. cbn [map concat] in HG'. apply Forall_app in HG'.
    destruct HG'. constructor; auto. }
  assert (HT : Forall (fun i => Forall (fun q => qf_tile q = item_tile i) (it_g i) /\ good (QF (head_key (it_g i)) (item_tile i) (Feature 0 0 0 0 [] GNull))) its).
  { rewrite Forall_map in R2. rewrite Forall_forall in *. intros i Hi. specialize (HI i Hi). specialize (R2 i Hi). specialize (HG' i Hi).
    destruct HI as (_ & _ & _ & HI). destruct (it_g i) as [|x g]; [destruct HI|]. unfold item_tile. rewrite HI. cbn [head_key].
    inversion HG' as [|? ? Gx Gg]; subst. split.
    - constructor; [reflexivity|]. unfold same_key in R2. rewrite Forall_forall in *. intros y Hy. specialize (R2 y Hy). specialize (Gg y Hy).
      destruct Gx as (X1 & X2 & X3), Gg as (Y1 & Y2 & Y3). apply (key_inj root); [assumption..|congruence].
    - destruct Gx as (X1 & X2 & X3). unfold good. cbn [qf_tile qf_key]. auto. }
  assert (HSS : StronglySorted (fun i j => z_le root (item_tile i) (item_tile j) /\ item_tile i <> item_tile j) its).
  { clear - HT R3. induction its as [|i its IH]; [constructor|]. cbn [map] in R3. inversion R3 as [|? ? R3' RF]; subst. inversion HT as [|? ? Hi HT']; subst.
    constructor; [auto|]. rewrite Forall_map in RF. rewrite Forall_forall in *. intros j Hj. specialize (RF j Hj). specialize (HT' j Hj).
    destruct Hi as [_ (X1 & X2 & X3)], HT' as [_ (Y1 & Y2 & Y3)]. cbn [qf_tile qf_key] in *. destruct RF as [RF1 RF2]. split.
    - unfold z_le. rewrite <- key_order by assumption. congruence.
    - intros E. apply RF2. rewrite X3, Y3. now rewrite E. }
  split; [assumption|]. split; [eapply Forall_impl; [|exact HT]; intros i [_ (A & B & _)]; cbn in *; auto|].
  split; [clear - HSS; induction HSS; constructor; auto; eapply Forall_impl; [|eassumption]; cbn; tauto|].
  split.
  { clear - HSS. induction HSS as [|i its HS IH HF]; cbn [map]; constructor; [|assumption].
    rewrite in_map_iff. intros (j & E & Hj). rewrite Forall_forall in HF. destruct (HF j Hj) as [_ N]. congruence. }
  split; [rewrite flat_map_concat_map, R1; assumption|].
  eapply Forall_impl; [|exact HT]. cbn. tauto.
Qed.

Lemma level_facts l its t : level_rel l its t -> Forall good l ->
  Forall item_ok its /\
  Forall (fun i => covers root (item_tile i) /\ tz (item_tile i) <= 20) its /\
  StronglySorted (fun i j => z_le root (item_tile i) (item_tile j)) its /\ NoDup (map item_tile its) /\
  Permutation (flat_map it_g its) l /\ Forall (fun i => Forall (fun q => qf_tile q = item_tile i) (it_g i)) its.
Proof.
  intros HR HG. destruct l as [|x0 l0]; [destruct HR as [-> ->]; repeat split; constructor|].
  destruct HR as (EG & HI & _). now apply level_facts0.
Qed.

Lemma tree_nonempty es t : make_quad_tree root es = Ok t -> t <> [].
Proof.
  intros HM HE. subst t. unfold make_quad_tree in HM. destruct es as [|e es]; [discriminate|].
  apply bind_ok in HM. destruct HM as (n & _ & HM). apply bind_ok in HM. destruct HM as (v & HS & HM). apply Ok_inj in HM.
  destruct v as [|x v]; [|discriminate]. unfold serialize_quad_tree in HS.
  assert (HG : forall fuel st v w, v <> [] -> serialize_loop fuel st v = Ok w -> w <> []).
  { clear. induction fuel as [|fuel IH]; intros st v w Hv; destruct st as [|[o [|c0 c1 c2 c3 off self sub]] st]; cbn [serialize_loop]; intros H; try discriminate;
      try (apply Ok_inj in H; subst; assumption).
    assert (HVS : forall v i x w, vset v i x = Ok w -> w <> []).
    { intros v' i x w'. unfold vset. destruct (_ <? _)%nat; [|discriminate]. intros E. apply Ok_inj in E. subst. destruct (firstn i v'); discriminate. }
    assert (HPC : forall o i c sv sv', snd sv <> [] -> push_child o i c sv = Ok sv' -> snd sv' <> []).
    { intros o' i c [st' v'] sv' Hn. unfold push_child. destruct c; intros E; [apply Ok_inj in E; subst; assumption|].
      apply bind_ok in E. destruct E as (s & _ & E). apply bind_ok in E. destruct E as (v2 & E2 & E). apply Ok_inj in E. subst. cbn [snd].
      apply HVS in E2. destruct v2; [congruence | discriminate]. }
    apply bind_ok in H. destruct H as (v1 & H1 & H). apply bind_ok in H. destruct H as (v2 & H2 & H). apply bind_ok in H. destruct H as (v3 & H3 & H).
    apply bind_ok in H. destruct H as (s1 & P1 & H). apply bind_ok in H. destruct H as (s2 & P2 & H).
    apply bind_ok in H. destruct H as (s3 & P3 & H). apply bind_ok in H. destruct H as (s4 & P4 & H).
    apply HVS in H3. apply HPC in P1; [|exact H3]. apply HPC in P2; [|exact P1]. apply HPC in P3; [|exact P2]. apply HPC in P4; [|exact P3].
    eapply IH; [exact P4 | exact H]. }
  apply HG in HS; [congruence | discriminate].
Qed.

(** ** Reading all levels *)
Lemma unpack_levels_ok B q : blen B < 2 ^ 30 -> tz root <= 20 -> tz q <= 20 -> forall ls n p itss ts p2 os rest pre post pre2 post2,
  (n <= length ls)%nat -> levels_at p ls itss ts -> offsets_at p2 ts os -> 0 < p2 ->
  B = pre ++ flat_map items_bytes itss ++ post -> blen pre = p ->
  B = pre2 ++ concat ts ++ post2 -> blen pre2 = p2 -> Forall (Forall good) ls ->
  unpack_levels root B q n (flat_map varint_enc os ++ rest) =
  Ok (flat_map it_b (flat_map (fun its => above_items q its ++ under_items q its) (firstn n itss))).
Proof.
  intros HB Hrz Hqz. induction ls as [|l ls IH]; intros n p itss ts p2 os rest pre post pre2 post2 Hn HL HO Hp2 EB Ep EB2 Ep2 HG.
  - destruct n; [|cbn in Hn; lia]. reflexivity.
  - destruct n as [|n]; [reflexivity|]. destruct itss as [|its itss]; [destruct HL|]. destruct ts as [|t ts]; [destruct HL|].
    destruct os as [|o os]; [destruct HO|]. cbn [levels_at] in HL. destruct HL as (HR & HP & HL). cbn [offsets_at] in HO. destruct HO as [Eo HO].
    inversion HG as [|? ? G1 G2]; subst p p2. cbn [flat_map] in EB. cbn [concat] in EB2.
    assert (Hps : blen pre2 < 2 ^ 30) by (rewrite EB2, !blen_app in HB; lia).
    assert (Ho64 : o < 2 ^ 64).
    { subst o. destruct t; [lia|]. rewrite N.mod_small by lia. lia. }
    cbn [unpack_levels flat_map firstn]. rewrite <- app_assoc, varint_roundtrip by assumption. cbn [bind].
    rewrite (IH n (blen pre + blen (items_bytes its)) itss ts (blen pre2 + blen t) os rest (pre ++ items_bytes its) post (pre2 ++ t) post2); try assumption; try lia.
    2:{ cbn [length] in Hn. lia. }
    2:{ rewrite EB at 1. now rewrite <- !app_assoc. }
    2:{ now rewrite blen_app. }
    2:{ rewrite EB2 at 1. now rewrite <- !app_assoc. }
    2:{ now rewrite blen_app. }
    destruct (level_facts l its t HR G1) as (F1 & F2 & F3 & F4 & F5 & F6).
    destruct l as [|x1 l].
    + destruct HR as [-> ->]. subst o. cbn [N.eqb bind]. cbn [bind].
      replace (above_items q [] ++ under_items q []) with (@nil item); [reflexivity|].
      unfold above_items, under_items. cbn [filter]. rewrite app_nil_r. symmetry. clear. induction (seq 0 (N.to_nat (tz q))); [reflexivity|]. exact IHl.
    + destruct HR as (_ & _ & HM). assert (Ht : t <> []) by (eapply tree_nonempty; eassumption).
      assert (Eo' : o = blen pre2) by (subst o; destruct t; [congruence | apply N.mod_small; lia]).
      rewrite Eo'. replace (blen pre2 =? 0) with false by lia.
      destruct (skip_to B pre2 (t ++ concat ts ++ post2) (blen pre2)) as [-> ->]; [now rewrite EB2, <- !app_assoc | reflexivity|].
      rewrite (level_walk enc mk root B its pre (flat_map items_bytes itss ++ post) t pre2 (concat ts ++ post2) q (blen pre));
        try assumption; try reflexivity.
      * cbn [bind]. now rewrite !flat_map_app.
      * rewrite EB at 1. now rewrite <- !app_assoc.
      * rewrite EB2 at 1. now rewrite <- !app_assoc.
Qed.

(** ** Selection over levels *)
Lemma by_level_perm qs : forall n k, Permutation (concat (by_level n k qs)) (filter (fun q => (k <=? lvl q)%nat && (lvl q <? k + n)%nat) qs).
Proof.
  induction n as [|n IH]; intros k; unfold ProofPacker.by_level; cbn [seq map concat].
  - rewrite filter_all_false; [constructor|]. apply Forall_forall. intros q _. lia.
  - fold (by_level n (S k) qs). rewrite IH. clear IH. induction qs as [|q qs IH]; [constructor|]. cbn [filter].
    destruct (Nat.eqb_spec (lvl q) k) as [E|E].
    + replace ((S k <=? lvl q)%nat && (lvl q <? S k + n)%nat) with false by lia.
      replace ((k <=? lvl q)%nat && (lvl q <? k + S n)%nat) with true by lia. cbn [app]. now constructor.
    + replace ((S k <=? lvl q)%nat && (lvl q <? S k + n)%nat) with ((k <=? lvl q)%nat && (lvl q <? k + S n)%nat) by lia.
      destruct ((k <=? lvl q)%nat && (lvl q <? k + S n)%nat); [|exact IH]. rewrite <- Permutation_middle. now constructor.
Qed.

Lemma firstn_by_level qs : forall n m k, (m <= n)%nat -> firstn m (by_level n k qs) = by_level m k qs.
Proof.
  induction n as [|n IH]; intros m k Hm; destruct m as [|m]; try reflexivity; try lia.
  unfold ProofPacker.by_level. cbn [seq map firstn]. f_equal. apply (IH m (S k)). lia.
Qed.

Lemma filter_flat_map {A B} (P : B -> bool) (f : A -> list B) l : filter P (flat_map f l) = flat_map (fun a => filter P (f a)) l.
Proof. induction l as [|a l IH]; [reflexivity|]. cbn [flat_map]. now rewrite filter_app, IH. Qed.

Lemma items_select q its : Forall (fun i => Forall (fun x => qf_tile x = item_tile i) (it_g i)) its ->
  flat_map it_g (filter (fun i => relatedb (item_tile i) q) its) = filter (fun x => relatedb (qf_tile x) q) (flat_map it_g its).
Proof.
  induction 1 as [|i its Hi HF IH]; [reflexivity|]. cbn [filter flat_map]. rewrite filter_app, <- IH.
  destruct (relatedb (item_tile i) q) eqn:E; cbn [flat_map]; f_equal.
  - clear - Hi E. induction Hi as [|x g Hx HF IH]; [reflexivity|]. cbn [filter]. rewrite Hx, E. now f_equal.
  - clear - Hi E. induction Hi as [|x g Hx HF IH]; [reflexivity|]. cbn [filter]. now rewrite Hx, E.
Qed.

Lemma Forall2_flat {A B} (R : A -> B -> Prop) (its : list item) (f : item -> list A) (g : item -> list B) :
  Forall (fun i => Forall2 R (f i) (g i)) its -> Forall2 R (flat_map f its) (flat_map g its).
Proof. induction 1; cbn [flat_map]; [constructor | now apply Forall2_app]. Qed.

Lemma levels_select q : forall ls p itss ts, levels_at p ls itss ts -> Forall (Forall good) ls ->
  Permutation (flat_map it_g (flat_map (fun its => above_items q its ++ under_items q its) itss))
              (filter (fun x => relatedb (qf_tile x) q) (concat ls)) /\
  Permutation (flat_map it_g (concat itss)) (concat ls) /\
  Forall item_ok (concat itss) /\ length itss = length ls.
Proof.
  induction ls as [|l ls IH]; intros p itss ts HL HG; destruct itss as [|its itss], ts as [|t ts]; try (destruct HL).
  - repeat split; constructor.
  - cbn [levels_at] in *. destruct H0 as [HP HL]. inversion HG as [|? ? G1 G2]; subst.
    destruct (IH _ _ _ HL G2) as (S1 & S2 & S3 & S4). destruct (level_facts l its t H G1) as (F1 & F2 & F3 & F4 & F5 & F6).
    split; [|split; [|split]].
    + cbn [flat_map concat]. rewrite flat_map_app, filter_app. apply Permutation_app; [|assumption].
      rewrite (Permutation_flat_map it_g (related_items q its)), items_select by assumption.
      clear - F5. induction F5; cbn [filter]; repeat match goal with |- context [if ?b then _ else _] => destruct b end; auto; try constructor; eauto using Permutation.
    + cbn [concat]. rewrite flat_map_app. now apply Permutation_app.
    + cbn [concat]. apply Forall_app. now split.
    + cbn [length]. congruence.
Qed.

Lemma levels_firstn : forall m ls p itss ts, levels_at p ls itss ts -> levels_at p (firstn m ls) (firstn m itss) (firstn m ts).
Proof.
  induction m as [|m IH]; intros ls p itss ts HL; [exact I|].
  destruct ls as [|l ls], itss as [|its itss], ts as [|t ts]; try (destruct HL; fail); [exact I|].
  cbn [firstn levels_at] in *. destruct HL as (A & B & C). split; [assumption|]. split; [assumption|]. now apply IH.
Qed.

Lemma in_related q its i : In i (above_items q its ++ under_items q its) -> In i its.
Proof.
  intros Hi. apply in_app_or in Hi. destruct Hi as [Hi|Hi].
  - apply in_flat_map in Hi. destruct Hi as (z & _ & Hi). apply filter_In in Hi. apply Hi.
  - apply filter_In in Hi. apply Hi.
Qed.

(** ** The packed buffer *)
Lemma finished_shape n D o T : blen (le_bytes 4 n) = 4 ->
  set_segment_offset ((le_bytes 4 n ++ [1] ++ 0 :: le_bytes 4 0) ++ D ++ T) o = le_bytes 4 n ++ [1] ++ (0 :: le_bytes 4 o) ++ D ++ T.
Proof.
  intros _. unfold set_segment_offset. cbn [le_bytes app]. cbn [firstn skipn app]. reflexivity.
Qed.

Lemma find_segment_ok n o data : o < 2 ^ 32 ->
  find_segment_offset (le_bytes 4 n ++ [1] ++ (0 :: le_bytes 4 o) ++ data) 0 = Ok (Some o).
Proof.
  intros Ho. unfold find_segment_offset.
  replace (nth 4 (le_bytes 4 n ++ [1] ++ (0 :: le_bytes 4 o) ++ data) 0) with 1 by reflexivity.
  change (N.to_nat 1) with 1%nat. cbn [find_segment]. change ((1 + 0) * 5) with 5.
  set (bs := le_bytes 4 n ++ [1] ++ (0 :: le_bytes 4 o) ++ data).
  assert (HL : 5 + 5 <=? blen bs = true).
  { unfold bs. rewrite !blen_app. unfold blen at 1 2 3. rewrite le_bytes_length. cbn [length]. rewrite le_bytes_length. lia. }
  rewrite HL. replace (nth (N.to_nat 5) bs 0) with 0 by reflexivity. cbn [N.eqb].
  do 2 f_equal. pose proof (slice_app_exact (le_bytes 4 n ++ [1] ++ [0]) (le_bytes 4 o) data) as E.
  change (blen (le_bytes 4 n ++ [1] ++ [0])) with (5 + 1) in E. change (blen (le_bytes 4 o)) with 4 in E.
  change ((le_bytes 4 n ++ [1] ++ [0]) ++ le_bytes 4 o ++ data) with bs in E. rewrite E. apply le_val_bytes. exact Ho.
Qed.

Definition best_of (f : feature) (t : tile) : Prop := find_best_tile root (bounding_box (f_geom f)) = Ok t.

Theorem packed packs B : tz root <= 20 -> valid_tile root ->
  pack_features_quad enc dec mk rd srt root packs = Ok B -> blen B < 2 ^ 30 ->
  exists strss qs, Forall2 unpacked packs strss /\ Forall2 is_input (concat strss) qs /\
    Forall (fun q => (lvl q <= N.to_nat (20 - tz root))%nat) qs /\ N.of_nat (length qs) < 2 ^ 32 /\
    (exists sel out rest, unpack_features B = Ok (out, rest) /\ Permutation sel qs /\ Forall2 ser sel out /\ Forall (fun s => blen s < 2 ^ 30) out) /\
    (forall q, tz q <= 20 -> exists sel out, unpack_features_for root B q = Ok out /\
       Permutation sel (filter (fun x => (N.of_nat (lvl x) <=? N.max (tz root) (tz q) - tz root) && relatedb (qf_tile x) q) qs) /\
       Forall2 ser sel out) /\
    feature_pack_valid B = true.
Proof.
  intros Hrz Hrv H HB. unfold pack_features_quad in H.
  apply bind_ok in H. destruct H as ([] & V & H). apply bind_ok in H. destruct H as ([ls n] & R & H).
  apply bind_ok in H. destruct H as (h & HH & H). apply bind_ok in H. destruct H as ([buf ts] & L & H).
  destruct (append_trees buf ts) as [buf1 os] eqn:ET. unfold append_packed in H. apply Ok_inj in H.
  set (nl := N.to_nat (21 - tz root)) in *.
  replace (repeat [] nl) with (by_level nl 0 []) in R.
  2:{ unfold ProofPacker.by_level. cbn [filter]. generalize 0%nat. clear. induction nl as [|n IH]; intros k; [reflexivity|]. cbn [seq map repeat]. now rewrite (IH (S k)). }
  apply read_packs_inv in R. destruct R as (strss & qs & FU & FI & FL & EL & En). cbn [app] in EL. rewrite N.add_0_l in En.
  unfold pack_header in HH. apply bind_ok in HH. destruct HH as ([] & VN & HH). apply verify_ok in VN. apply Ok_inj in HH.
  cbn [length N.of_nat flat_map] in HH. rewrite app_nil_r in HH. change (N.of_nat (length [kQuadTreeFeatureIndexId])) with 1 in HH.
  apply append_levels_inv in L. destruct L as (itss & HL & EB). apply append_trees_inv in ET. destruct ET as [EB1 HO].
  assert (Hh : blen h = 10) by (subst h; rewrite !blen_app; unfold blen; rewrite le_bytes_length; reflexivity).
  (* the buffer *)
  set (D := flat_map items_bytes itss) in *. set (I := flat_map varint_enc os) in *. set (o := blen buf1 mod 2 ^ 32) in *.
  assert (EF : exists crc, B = le_bytes 4 n ++ [1] ++ (0 :: le_bytes 4 o) ++ D ++ concat ts ++ I ++ crc).
  { eexists. rewrite <- H. unfold pack_finish. subst buf1 buf h. change kQuadTreeFeatureIndexId with 0.
    rewrite <- !(app_assoc _ _ I), <- !(app_assoc _ D _). 
    rewrite finished_shape by reflexivity. rewrite <- !app_assoc. reflexivity. }
  assert (HV : feature_pack_valid B = true) by (rewrite <- H; apply finish_valid).
  clear H. destruct EF as (crc & EF).
  assert (Hg : Forall good qs).
  { clear - FI Hrz Hrv. induction FI as [|s q ss qs (_ & HB & HK) FI IH]; constructor; [|assumption].
    apply best_tile_in_root in HB; [|assumption..]. destruct HB as [HC Hz]. rewrite make_quad_key_ok in HK by (assumption || lia).
    apply Ok_inj in HK. split; [assumption|]. split; [assumption | now symmetry]. }
  assert (Hgl : Forall (Forall good) ls).
  { subst ls. unfold ProofPacker.by_level. rewrite Forall_map. apply Forall_forall. intros i _. apply Forall_forall. intros q Hq.
    apply filter_In in Hq. rewrite Forall_forall in Hg. apply Hg, Hq. }
  assert (Hlen : length ls = nl) by (subst ls; unfold ProofPacker.by_level; now rewrite map_length, seq_length).
  assert (HBb : blen B = 10 + blen D + blen (concat ts) + blen I + blen crc).
  { rewrite EF, !blen_app. unfold blen at 1 2 3. cbn [length le_bytes]. lia. }
  assert (Hb1 : blen buf1 = 10 + blen D + blen (concat ts)) by (subst buf1 buf; rewrite !blen_app; lia).
  assert (Ho : o = blen buf1) by (unfold o; apply N.mod_small; lia).
  assert (Hpre : forall x, blen (le_bytes 4 n ++ [1] ++ (0 :: le_bytes 4 x)) = 10) by reflexivity.
  destruct (levels_select (Tile 0 0 0) ls _ itss ts HL Hgl) as (_ & S2 & S3 & S4).
  assert (Hall : Permutation (concat ls) qs).
  { subst ls. rewrite by_level_perm. rewrite Forall_forall in FL. clear - FL.
    replace (filter _ qs) with qs; [reflexivity|]. symmetry. induction qs as [|q qs IH]; [reflexivity|]. cbn [filter].
    replace ((0 <=? lvl q)%nat && (lvl q <? 0 + nl)%nat) with true by (specialize (FL q (or_introl eq_refl)); lia).
    f_equal. apply IH. intros x Hx. apply FL. right. assumption. }
  assert (Hser : Forall (fun i => Forall2 ser (it_g i) (it_b i)) (concat itss)).
  { eapply Forall_impl; [|exact S3]. intros i Hi. apply Hi. }
  assert (HDc : D = items_bytes (concat itss)).
  { unfold D, items_bytes. clear. induction itss as [|its itss IH]; [reflexivity|]. cbn [flat_map concat]. now rewrite flat_map_app, IH. }
  assert (Hsz : Forall (fun i => it_b i <> [] /\ Forall (fun s => 0 < blen s < 2 ^ 30) (it_b i)) (concat itss)).
  { rewrite Forall_forall in S3 |- *. intros i Hi. specialize (S3 i Hi). destruct S3 as (I1 & I2 & _ & I4). split.
    - destruct (it_g i); [destruct I4|]. inversion I1. discriminate.
    - rewrite Forall_forall in I2 |- *. intros s Hs. specialize (I2 s Hs). split; [lia|].
      assert (blen s <= blen D); [|lia]. rewrite HDc.
      destruct (in_split _ _ Hi) as (a & b & ->). rewrite items_bytes_app, blen_app. cbn [items_bytes flat_map]. rewrite blen_app.
      unfold span_bytes. rewrite blen_app. destruct (in_split _ _ Hs) as (c & d & ->). rewrite flat_map_app, blen_app. cbn [flat_map]. rewrite !blen_app. lia. }
  exists strss, qs. split; [assumption|]. split; [assumption|].
  split; [eapply Forall_impl; [|exact FL]; cbv beta; intros q; unfold nl; clear - Hrz; lia|]. split; [lia|].
  split; [|split; [|exact HV]].
  - (* full unpack *)
    assert (Hn : length (flat_map it_b (concat itss)) = N.to_nat n).
    { rewrite <- (Forall2_len _ _ _ (Forall2_flat ser (concat itss) it_g it_b Hser)).
      rewrite (Permutation_length S2), (Permutation_length Hall). lia. }
    destruct (unpack_items (concat itss)) with (k := 0%nat) (rest := concat ts ++ I ++ crc) as (r & E).
    { eapply Forall_impl; [|exact Hsz]. cbn. intros i [A C]. split; [assumption|]. eapply Forall_impl; [|exact C]. cbn. lia. }
    exists (flat_map it_g (concat itss)), (flat_map it_b (concat itss)), r. split.
    + pose proof (unpack_features_shape n (0 :: le_bytes 4 o) (D ++ concat ts ++ I ++ crc) [0] ltac:(lia) eq_refl ltac:(cbn; lia)) as US.
      change (N.of_nat (length [0])) with 1 in US. rewrite EF, US. rewrite <- Hn. rewrite HDc. exact E.
    + split; [now rewrite S2|]. split; [now apply Forall2_flat|].
      apply Forall_forall. intros s Hs. apply in_flat_map in Hs. destruct Hs as (i & Hi & Hs). rewrite Forall_forall in Hsz.
      destruct (Hsz i Hi) as [_ C]. rewrite Forall_forall in C. apply C, Hs.
  - (* indexed unpack *)
    intros q Hq. set (m := N.to_nat (N.max (tz root) (tz q) - tz root + 1)).
    assert (Hm : (m <= nl)%nat) by (unfold m, nl; lia).
    pose proof (levels_firstn m _ _ _ _ HL) as HLm.
    destruct (levels_select q (firstn m ls) _ _ _ HLm) as (T1 & _ & T3 & _).
    { clear - Hgl. rewrite Forall_forall in *. intros x Hx. apply Hgl. rewrite <- (firstn_skipn m ls). apply in_or_app. left. assumption. }
    exists (flat_map it_g (flat_map (fun its => above_items q its ++ under_items q its) (firstn m itss))),
           (flat_map it_b (flat_map (fun its => above_items q its ++ under_items q its) (firstn m itss))).
    split; [|split].
    + unfold unpack_features_for. replace (5 <=? blen B) with true by lia. cbn [verify bind].
      rewrite EF at 1. change kQuadTreeFeatureIndexId with 0. rewrite find_segment_ok by (rewrite Ho; lia). cbn [bind].
      replace (o <=? blen B) with true by lia. cbn [verify bind]. fold m.
      destruct (skip_to B (le_bytes 4 n ++ [1] ++ (0 :: le_bytes 4 o) ++ D ++ concat ts) (I ++ crc) o) as [_ ->].
      { rewrite EF at 1. now rewrite <- !app_assoc. }
      { rewrite Ho, Hb1. rewrite !blen_app. unfold blen at 1 2 3. cbn [length le_bytes]. lia. }
      unfold I. apply (unpack_levels_ok B q HB Hrz Hq ls m (blen h) itss ts (blen buf) os crc
        (le_bytes 4 n ++ [1] ++ (0 :: le_bytes 4 o)) (concat ts ++ I ++ crc)
        (le_bytes 4 n ++ [1] ++ (0 :: le_bytes 4 o) ++ D) (I ++ crc)); try assumption; try lia.
      * subst buf. rewrite blen_app. lia.
      * now rewrite Hh.
      * subst buf. rewrite (blen_app h), Hh. rewrite !blen_app. unfold blen at 1 2 3. cbn [length le_bytes]. lia.
    + rewrite T1. subst ls. rewrite firstn_by_level by assumption.
      assert (P : Permutation (filter (fun x => relatedb (qf_tile x) q) (concat (by_level m 0 qs)))
        (filter (fun x => relatedb (qf_tile x) q) (filter (fun q => (0 <=? lvl q)%nat && (lvl q <? 0 + m)%nat) qs))).
      { generalize (by_level_perm qs m 0). generalize (concat (by_level m 0 qs)).
        generalize (filter (fun q => (0 <=? lvl q)%nat && (lvl q <? 0 + m)%nat) qs). clear. intros l' l HP.
        induction HP; cbn [filter]; repeat match goal with |- context [if ?b then _ else _] => destruct b end; auto; try constructor; eauto using Permutation. }
      rewrite P, filter_filter. erewrite filter_ext; [reflexivity|]. intros x. cbv beta.
      replace ((0 <=? lvl x)%nat && (lvl x <? 0 + m)%nat) with (N.of_nat (lvl x) <=? N.max (tz root) (tz q) - tz root); [apply andb_comm || reflexivity|].
      unfold m. lia.
    + apply Forall2_flat. apply Forall_forall. intros i Hi. apply in_flat_map in Hi. destruct Hi as (its & Hits & Hi).
      apply in_related in Hi. rewrite Forall_forall in T3. apply T3. apply in_concat. eauto.
Qed.
End Packing.
