(** How large an indexed pack is. *)
From Coq Require Import Permutation.
From Verif Require Import Base BaseProof ModelTile SpecTile ProofTile ModelCodec ProofCodec ModelGeom SpecGeom ModelFeature SpecFeature ProofFeature
  ModelQuadTree SpecQuadTree ProofQuadTree ModelPack SpecPack ProofPack ModelPacker SpecPacker ProofBestTile ProofPacker ProofPackerTop ProofPackerProps.
Open Scope nat_scope.

Lemma sum_cons a l : list_sum (a :: l) = a + list_sum l. Proof. reflexivity. Qed.
(** ** nodes of the temporary tree *)
Definition mass (m : tmap qtree) : nat := list_sum (map (fun e => qcount (snd e)) m).
Lemma mass_cons e m : mass (e :: m) = qcount (snd e) + mass m.
Proof. reflexivity. Qed.
Lemma tput_mass m t n : mass (tput m t n) <= mass m + qcount n /\ (forall o, tget m t = Some o -> mass (tput m t n) + qcount o = mass m + qcount n).
Proof.
  induction m as [|[k b] m [IH1 IH2]]; cbn [tput tget]; [split; [unfold mass; cbn [map list_sum fold_right snd]; lia|discriminate]|].
  destruct (tile_eqb k t); rewrite !mass_cons; cbn [snd].
  - split; [lia|]. intros o E. injection E as ->. lia.
  - split; [lia|]. intros o E. specialize (IH2 o E). lia.
Qed.
Lemma tput_length {A} (m : tmap A) t n : length (tput m t n) <= S (length m).
Proof. induction m as [|[k b] m IH]; cbn [tput length]; [lia|]. destruct (tile_eqb k t); cbn [length]; lia. Qed.
Lemma add_child_count i c p : qcount (add_child i c p) <= qcount p + qcount c.
Proof.
  destruct p as [|c0 c1 c2 c3 o s u]; [cbn; lia|]. destruct c as [|d0 d1 d2 d3 o' s' u']; [cbn [add_child]; lia|]. unfold add_child.
  set (d := QNode d0 d1 d2 d3 o' s' u'). clearbody d. destruct i as [|[p|[p|p|]|]]; cbn [qcount]; lia.
Qed.
Lemma attach_mass m e : mass (attach m e) <= mass m + S (qcount (snd e)) /\ length (attach m e) <= S (length m).
Proof.
  unfold attach. split; [|apply tput_length]. destruct (tget m (tile_parent (fst e))) as [o|] eqn:E.
  - destruct (tput_mass m (tile_parent (fst e)) (add_child (quad_pos (fst e)) (snd e) o)) as [_ H]. specialize (H o E). pose proof (add_child_count (quad_pos (fst e)) (snd e) o). lia.
  - destruct (tput_mass m (tile_parent (fst e)) (add_child (quad_pos (fst e)) (snd e) empty_node)) as [H _]. pose proof (add_child_count (quad_pos (fst e)) (snd e) empty_node) as H1. cbn [qcount empty_node] in H1. lia.
Qed.
Lemma fold_mass D : forall m, mass (fold_left attach D m) <= mass m + mass D + length D /\ length (fold_left attach D m) <= length m + length D.
Proof.
  induction D as [|e D IH]; intros m; cbn [fold_left length]; [unfold mass; cbn [map list_sum fold_right]; lia|]. rewrite mass_cons. destruct (IH (attach m e)) as [H1 H2]. destruct (attach_mass m e) as [H3 H4]. lia.
Qed.
Definition masses (ls : list (tmap qtree)) : nat := list_sum (map mass ls).
Definition lengths (ls : list (tmap qtree)) : nat := list_sum (map (@length _) ls).
Lemma masses_cons l ls : masses (l :: ls) = mass l + masses ls. Proof. reflexivity. Qed.
Lemma lengths_cons l ls : lengths (l :: ls) = length l + lengths ls. Proof. reflexivity. Qed.
Lemma build_mass ls : mass (build_levels ls) <= masses ls + length ls * lengths ls /\ length (build_levels ls) <= lengths ls.
Proof.
  induction ls as [|l ls [IH1 IH2]]; [cbn; lia|]. destruct ls as [|l2 ls].
  - cbn [build_levels]. rewrite masses_cons, lengths_cons. cbn [length]. lia.
  - set (D := l2 :: ls) in *. change (build_levels (l :: D)) with (fold_left attach (build_levels D) l). destruct (fold_mass (build_levels D) l) as [H1 H2].
    rewrite masses_cons, lengths_cons. cbn [length]. nia.
Qed.
Lemma put_level_mass j t n : forall ls, masses (put_level ls j t n) <= masses ls + qcount n /\ lengths (put_level ls j t n) <= S (lengths ls).
Proof.
  induction j as [|j IH]; intros ls; destruct ls as [|l ls]; cbn [put_level]; rewrite ?masses_cons, ?lengths_cons.
  - destruct (tput_mass [] t n) as [H _]. pose proof (tput_length ([] : tmap qtree) t n). change (masses []) with 0 in *. change (lengths []) with 0 in *. change (mass []) with 0 in *. cbn [length] in *. lia.
  - destruct (tput_mass l t n) as [H _]. pose proof (tput_length l t n). lia.
  - destruct (IH []) as [H1 H2]. change (mass []) with 0 in *. change (masses []) with 0 in *. change (lengths []) with 0 in *. cbn [length] in *. lia.
  - destruct (IH ls) as [H1 H2]. lia.
Qed.
Lemma insert_mass root : forall es ls ls', insert_inputs root ls es = Ok ls' ->
  masses ls' <= masses ls + length es /\ lengths ls' <= lengths ls + length es /\
  (Forall (fun e => (tz (qi_tile e) <= 20)%N) es -> length ls <= 21 -> length ls' <= 21).
Proof.
  induction es as [|e es IH]; intros ls ls' H; cbn [insert_inputs] in H.
  - apply Ok_inj in H. subst ls'. cbn [length]. repeat split; lia || auto.
  - apply bind_ok in H as ([] & _ & H). apply bind_ok in H as ([] & _ & H). apply IH in H as (H1 & H2 & H3). cbn [length].
    match type of H1 with _ <= masses (put_level ls ?j ?t ?n) + _ => destruct (put_level_mass j t n ls) as [P1 P2] end. cbn [qcount] in P1.
    split; [lia|]. split; [lia|]. intros HF HL. apply Forall_cons_iff in HF as [HF1 HF2]. apply H3; [assumption|]. rewrite put_level_length. lia.
Qed.
Lemma tree_count root es n : make_tmp_quad_tree root es = Ok n -> Forall (fun e => (tz (qi_tile e) <= 20)%N) es -> qcount n <= 22 * length es.
Proof.
  unfold make_tmp_quad_tree. intros H HF. apply bind_ok in H as (ls & HI & H). apply insert_mass in HI as (H1 & H2 & H3). destruct (build_mass ls) as [H4 _].
  specialize (H3 HF). cbn [length] in H3. destruct (build_levels ls) as [|[t m] [|? ?]]; try discriminate. apply bind_ok in H as ([] & _ & H). apply Ok_inj in H. subst m.
  rewrite mass_cons in H4. cbn [snd] in H4. change (mass []) with 0 in H4. change (masses [[]]) with 0 in H1. change (lengths [[]]) with 0 in H2. specialize (H3 ltac:(lia)). nia.
Qed.
Lemma vset_length v i x v' : vset v i x = Ok v' -> length v' = length v.
Proof. unfold vset. destruct (Nat.ltb_spec i (length v)) as [H|]; [|discriminate]. intros E. apply Ok_inj in E. subst v'. rewrite app_length, firstn_length. cbn [length]. rewrite skipn_length. lia. Qed.
Lemma push_length o i c st v st' v' : push_child o i c (st, v) = Ok (st', v') -> length v' <= length v + 4.
Proof.
  unfold push_child. destruct c; intros H; [apply Ok_inj in H; injection H as <- <-; lia|]. apply bind_ok in H as (s & _ & H). apply bind_ok in H as (v1 & H1 & H). apply Ok_inj in H. apply (f_equal snd) in H. cbn [snd] in H. subst v'.
  apply vset_length in H1. rewrite app_length. cbn [length]. lia.
Qed.
Lemma loop_length : forall fuel st v v', serialize_loop fuel st v = Ok v' -> length v' <= length v + 16 * fuel.
Proof.
  induction fuel as [|f IH]; intros st v v' H; destruct st as [|[o [|c0 c1 c2 c3 off self sub]] st]; cbn [serialize_loop] in H; try discriminate; try (apply Ok_inj in H; subst; lia).
  apply bind_ok in H as (v1 & H1 & H). apply bind_ok in H as (v2 & H2 & H). apply bind_ok in H as (v3 & H3 & H).
  apply bind_ok in H as ([s4 v4] & H4 & H). apply bind_ok in H as ([s5 v5] & H5 & H). apply bind_ok in H as ([s6 v6] & H6 & H). apply bind_ok in H as ([s7 v7] & H7 & H). cbn [fst snd] in H.
  apply IH in H. apply vset_length in H1, H2, H3. apply push_length in H4, H5, H6, H7. lia.
Qed.
Lemma u32_length v : length (u32_bytes v) = 4 * length v.
Proof. unfold u32_bytes. induction v as [|x v IH]; [reflexivity|]. cbn [flat_map]. rewrite app_length, IH, le_bytes_length. cbn [length]. lia. Qed.
Lemma tree_length root es t : make_quad_tree root es = Ok t -> Forall (fun e => (tz (qi_tile e) <= 20)%N) es -> length t <= 16 + 1408 * length es.
Proof.
  unfold make_quad_tree. destruct es as [|e es]; intros H HF; [apply Ok_inj in H; subst t; rewrite u32_length; cbn [length]; lia|].
  apply bind_ok in H as (n & Hn & H). apply bind_ok in H as (v & Hv & H). apply Ok_inj in H. subst t. apply tree_count in Hn; [|assumption]. unfold serialize_quad_tree in Hv. apply loop_length in Hv. rewrite u32_length.
  set (k := length (e :: es)) in *. clearbody k. set (q := qcount n) in *. clearbody q. cbn [length] in Hv. lia.
Qed.

(** ** the spans *)
Lemma span_length bss Bd : Forall (fun s => length s <= Bd) bss -> length (span_bytes bss) <= 1 + length bss * (Bd + 10).
Proof.
  unfold span_bytes. rewrite app_length. change (length (varint_enc 0)) with 1. intros H. enough (length (flat_map (fun f => varint_enc (blen f) ++ f) bss) <= length bss * (Bd + 10)) by lia.
  induction H as [|s bss H _ IH]; [cbn; lia|]. cbn [flat_map length]. rewrite !app_length. pose proof (varint_len_f 10 (blen s)). unfold varint_enc in *. lia.
Qed.
Section Size.
Context (enc : meta -> option N) (dec : N -> res meta) (mk : line -> bytes) (rd : mask_reader) (srt : list qfeature -> list qfeature) (root : tile).
Hypothesis Hsrt : sorts_by_key srt.
Variable Bd : nat.
Definition light (q : qfeature) : Prop := (tz (qf_tile q) <= 20)%N /\ forall s, ProofPacker.ser enc mk q s -> length s <= Bd.

Lemma items_length its : Forall (item_ok enc mk) its -> Forall light (concat (map it_g its)) ->
  length (items_bytes its) <= length (concat (map it_g its)) * (Bd + 11) /\ length its <= length (concat (map it_g its)) /\ Forall (fun e => (tz (qi_tile e) <= 20)%N) (map it_e its).
Proof.
  induction 1 as [|i its (H1 & H2 & H3 & H4) _ IH]; intros HL; [repeat split; cbn; try lia; constructor|].
  cbn [map concat] in *. apply Forall_app in HL as [L1 L2]. destruct (IH L2) as (A & B & C). unfold items_bytes in *. cbn [flat_map]. rewrite !app_length. cbn [length].
  assert (S1 : Forall (fun s => length s <= Bd) (it_b i)).
  { clear - H1 L1. revert L1. induction H1 as [|q s qs ss Hs _ IH]; intros L; [constructor|]. apply Forall_cons_iff in L as [[_ L] L']. constructor; auto. }
  apply span_length in S1. assert (EI : length (it_g i) = @length (list N) (it_b i)) by exact (Forall2_len _ _ _ H1). rewrite <- EI in S1. clear EI. destruct (it_g i) as [|x g] eqn:Eg; [contradiction|]. apply Forall_cons_iff in L1 as [[Z _] _]. cbn [length] in *.
  split; [nia|]. split; [lia|]. constructor; [|assumption]. rewrite H4. exact Z.
Qed.
Lemma levels_length : forall ls buf b ts, append_levels enc mk srt root buf ls = Ok (b, ts) -> Forall (Forall light) ls ->
  length b + list_sum (map (@length N) ts) <= length buf + 16 * length ls + list_sum (map (@length _) ls) * (Bd + 1419) /\ length ts = length ls.
Proof.
  induction ls as [|l ls IH]; intros buf b ts H HF; cbn [append_levels] in H.
  - apply Ok_inj in H. injection H as <- <-. cbn [map list_sum fold_right length]. lia.
  - apply Forall_cons_iff in HF as [F1 F2]. destruct l as [|x l].
    + apply bind_ok in H as ([b1 ts1] & H1 & H). apply Ok_inj in H. injection H as <- <-. destruct (IH _ _ _ H1 F2) as [A B]. cbn [map length] in *. rewrite !sum_cons. cbn [length]. split; lia.
    + set (l' := x :: l) in *. apply bind_ok in H as ([b1 es] & H1 & H). apply bind_ok in H as (t & Ht & H). apply bind_ok in H as ([b2 ts2] & H2 & H). apply Ok_inj in H. injection H as <- <-.
      destruct (IH _ _ _ H2 F2) as [A B]. apply append_runs_inv in H1 as (its & EG & EE & HI & _ & ->).
      assert (EL : concat (map it_g its) = srt l') by (rewrite EG; apply runs_ok). destruct (Hsrt l') as [HP _].
      destruct (items_length its HI) as (L1 & L2 & L3); [rewrite EL; eapply Permutation_Forall; [symmetry; exact HP | exact F1]|]. rewrite EE in L3. apply tree_length in Ht; [|assumption].
      rewrite EL, (Permutation_length HP) in L1, L2. assert (EE' : length es = length its) by (rewrite <- EE; apply map_length). rewrite app_length in A. cbn [map]. rewrite !sum_cons. cbn [length] in *.
      change (S (length l)) with (length l') in *. set (p := length l') in *. clearbody p. split; [nia|lia].
Qed.
Lemma trees_length : forall ts buf b os, append_trees buf ts = (b, os) -> length b = length buf + list_sum (map (@length N) ts) /\ length os = length ts.
Proof.
  induction ts as [|t ts IH]; intros buf b os H; cbn [append_trees] in H; [injection H as <- <-; cbn; lia|]. cbn [map length]. rewrite sum_cons. destruct t as [|y t].
  - destruct (append_trees buf ts) as [b1 os1] eqn:E. injection H as <- <-. destruct (IH _ _ _ E). cbn [length]. lia.
  - destruct (append_trees (buf ++ y :: t) ts) as [b1 os1] eqn:E. injection H as <- <-. destruct (IH _ _ _ E) as [A B]. rewrite app_length in A. cbn [length] in *. lia.
Qed.
Lemma by_level_sum n k qs : list_sum (map (@length _) (by_level root n k qs)) <= length qs.
Proof.
  unfold by_level. rewrite map_map. enough (list_sum (map (fun i => length (filter (fun q => (lvl root q =? i)%nat) qs)) (seq k n)) <= length (filter (fun q => k <=? lvl root q) qs)).
  { etransitivity; [exact H|]. clear. induction qs as [|q qs IH]; [reflexivity|]. cbn [filter]. destruct (k <=? lvl root q); cbn [length]; lia. }
  revert k. induction n as [|n IH]; intros k; [cbn; lia|]. cbn [seq map]. change (list_sum (?a :: ?b)) with (a + list_sum b). specialize (IH (S k)).
  enough (length (filter (fun q => (lvl root q =? k)%nat) qs) + length (filter (fun q => S k <=? lvl root q) qs) <= length (filter (fun q => k <=? lvl root q) qs)) by lia.
  clear. induction qs as [|q qs IH]; [reflexivity|]. cbn [filter]. destruct (Nat.eqb_spec (lvl root q) k), (Nat.leb_spec (S k) (lvl root q)), (Nat.leb_spec k (lvl root q)); cbn [length]; lia.
Qed.

Lemma holds_strs p fs strs : pack_holds dec p fs -> unpacked p strs -> Forall2 (stored_as dec) fs strs.
Proof. intros (s1 & r1 & U1 & F) (r2 & U2). rewrite U1 in U2. apply Ok_inj in U2. injection U2 as <- _. exact F. Qed.
Lemma holds_all packs : forall fss strss, Forall2 (pack_holds dec) packs fss -> Forall2 unpacked packs strss -> Forall2 (stored_as dec) (concat fss) (concat strss).
Proof.
  induction packs as [|p packs IH]; intros fss strss H1 H2; inversion H1; subst; inversion H2; subst; cbn [concat]; [constructor|]. apply Forall2_app; [eapply holds_strs; eassumption|auto].
Qed.

Theorem quad_size packs fss B : (tz root <= 20)%N -> valid_tile root -> Forall2 (pack_holds dec) packs fss -> Forall (fits enc mk root) (concat fss) ->
  (forall f f' s, In f (concat fss) -> same_but f f' (f_geom f) -> serialize_feature enc mk false f' = Ok s -> length s <= Bd) ->
  pack_features_quad enc dec mk rd srt root packs = Ok B -> length B <= 600 + length (concat fss) * (Bd + 1419).
Proof.
  intros Hz Hv HP HF HB H. unfold pack_features_quad in H. apply bind_ok in H as ([] & _ & H). set (nl := N.to_nat (21 - tz root)) in *.
  replace (repeat [] nl) with (by_level root nl 0 []) in H.
  2:{ unfold by_level. cbn [filter]. generalize 0%nat. clear. induction nl as [|n IH]; intros k; [reflexivity|]. cbn [seq map repeat]. now rewrite (IH (S k)). }
  apply bind_ok in H as ([ls n] & HR & H). apply read_packs_inv in HR as (strss & qs & HU & HI & _ & -> & ->). cbn [app] in H.
  pose proof (holds_all packs fss strss HP HU) as HS.
  assert (HL : Forall light qs /\ length qs = length (concat fss)).
  { split; [|rewrite <- (Forall2_len _ _ _ HI), <- (Forall2_len _ _ _ HS); reflexivity].
    revert HF HB HI. clear - HS Hz Hv. revert qs. generalize dependent (concat strss). generalize (concat fss). clear fss.
    intros fs strs HS. induction HS as [|f s fs strs Hs HS IH]; intros qs HF HB HI; inversion HI as [|? q ? qs' (D & Eb & _) HI']; subst; [constructor|].
    apply Forall_cons_iff in HF as [HF1 HF2]. constructor; [|apply IH; auto; intros; eapply HB; eauto; now right].
    destruct Hs as (Hb & f1 & e & m & fast & SB1 & HC & Hser). pose proof HF1 as (HP1 & HM & HT & _). pose proof (same_but_plain _ _ SB1 HP1) as [HO HPr]. assert (EG1 : f_geom f1 = f_geom f) by apply SB1.
    destruct (feature_roundtrip e dec m rd fast f1 s HO HC HPr Hser Hb) as (f' & D' & SB & _). rewrite EG1 in SB. apply (same_but_trans _ _ _ SB1) in SB.
    assert (HWf : box_wf (bounding_box (f_geom f))) by (rewrite <- EG1; exact (serialize_box_wf _ _ _ _ _ Hser)). rewrite D in D'. apply Ok_inj in D'. injection D' as E.
    destruct (best_tile_ok root (bounding_box (f_geom f)) Hz Hv HWf HT) as (b & Eb' & Cb & Zb & _).
    pose proof SB as (_ & _ & _ & _ & _ & SG). rewrite E, SG, Eb' in Eb. apply Ok_inj in Eb. subst b. split; [exact Zb|].
    intros s' Hs'. unfold ProofPacker.ser in Hs'. rewrite E in Hs'. eapply HB; eauto. now left. }
  destruct HL as [HL EL]. apply bind_ok in H as (h & Hh & H). unfold pack_header in Hh. apply bind_ok in Hh as ([] & _ & Hh). apply Ok_inj in Hh.
  apply bind_ok in H as ([b1 ts] & HA & H). destruct (append_trees b1 ts) as [b2 os] eqn:ET. unfold append_packed in H. apply Ok_inj in H. subst B.
  apply levels_length in HA as [A1 A2].
  2:{ apply Forall_forall. intros l Hl. unfold by_level in Hl. apply in_map_iff in Hl as (i & <- & _). apply Forall_forall. intros q Hq. apply filter_In in Hq as [Hq _]. exact (proj1 (Forall_forall _ _) HL q Hq). }
  apply trees_length in ET as [T1 T2]. pose proof (by_level_sum nl 0 qs) as BS. assert (LB : length (by_level root nl 0 qs) = nl) by (unfold by_level; rewrite map_length, seq_length; reflexivity). rewrite LB in *.
  assert (Lh : length h = 10). { subst h. rewrite !app_length, le_bytes_length. reflexivity. }
  assert (LO : length (flat_map varint_enc os) <= 10 * nl).
  { rewrite <- A2, <- T2. clear. induction os as [|o os IH]; [cbn; lia|]. cbn [flat_map length]. rewrite app_length. pose proof (varint_len_f 10 o). unfold varint_enc in *. lia. }
  assert (Hnl : nl <= 21) by (unfold nl; lia).
  unfold pack_finish, set_segment_offset. rewrite !app_length, !le_bytes_length, firstn_length, skipn_length, app_length, T1.
  rewrite <- EL. set (S1 := list_sum (map (@length N) ts)) in *. clearbody S1. set (S2 := list_sum (map (@length qfeature) (by_level root nl 0 qs))) in *. clearbody S2. nia.
Qed.
End Size.
