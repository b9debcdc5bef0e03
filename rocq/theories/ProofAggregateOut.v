(** The result of joining: lines, segments, features. *)
From Coq Require Import Permutation Sorting.Sorted.
From Verif Require Import Base BaseProof ModelTile ModelCodec ModelGeom ModelFeature ModelDict ModelAggregate SpecDict SpecAggregate
  ProofAggregate ProofAggregateJoin ProofDict ProofRender.
Open Scope Z_scope.

(** ** the points of a tree *)
Lemma emit_spec lns t acc : Forall (fun s => ori lns s <> []) (leaves t) ->
  emit_tree lns t acc = match acc with [] => glue (map (ori lns) (leaves t)) | _ => acc ++ concat (map (@tl pt) (map (ori lns) (leaves t))) end.
Proof.
  revert acc. induction t as [k rv|l IHl r IHr rv]; intros acc H.
  - cbn [emit_tree leaves map glue concat]. unfold ori, oriented. cbn [fst snd]. rewrite !app_nil_r.
    destruct acc as [|a acc]; [destruct rv; reflexivity|]. f_equal. destruct rv; [|reflexivity].
    destruct (nth k lns []) as [|x l] using rev_ind; [reflexivity|]. rewrite removelast_last, rev_app_distr. reflexivity.
  - assert (Hg : forall a b acc, Forall (fun s => ori lns s <> []) (leaves a) -> Forall (fun s => ori lns s <> []) (leaves b) ->
      (forall acc, emit_tree lns a acc = match acc with [] => glue (map (ori lns) (leaves a)) | _ => acc ++ concat (map (@tl pt) (map (ori lns) (leaves a))) end) ->
      (forall acc, emit_tree lns b acc = match acc with [] => glue (map (ori lns) (leaves b)) | _ => acc ++ concat (map (@tl pt) (map (ori lns) (leaves b))) end) ->
      emit_tree lns b (emit_tree lns a acc) = match acc with [] => glue (map (ori lns) (leaves a ++ leaves b)) | _ => acc ++ concat (map (@tl pt) (map (ori lns) (leaves a ++ leaves b))) end).
    { clear. intros a b acc Fa Fb Ea Eb. rewrite Ea. destruct acc as [|x acc].
      - pose proof (leaves_nonempty a) as Na. destruct (leaves a) as [|s ra]; [congruence|].
        inversion Fa as [|? ? Hs _]; subst. cbn [map glue app]. rewrite Eb.
        destruct (ori lns s) as [|y l] eqn:E; [congruence|]. cbn [app]. rewrite !map_app, concat_app, <- app_assoc. reflexivity.
      - rewrite Eb. cbn [app]. rewrite !map_app, concat_app, <- app_assoc. reflexivity. }
    cbn [emit_tree leaves] in *. destruct rv; apply Forall_app in H as [H1 H2]; apply Hg; auto.
Qed.

Section Lines.
Variable lns : list line.
Hypothesis Hok : Forall line_ok lns.
Let n := length lns.
Lemma ori_nonempty s : (fst s < n)%nat -> ori lns s <> [].
Proof.
  intros Hs. pose proof (proj1 (Forall_forall _ _) Hok _ (nth_In lns [] Hs)) as (H & _).
  unfold ori, oriented. destruct (snd s); [|exact H]. intros E. apply (f_equal (@rev pt)) in E. rewrite rev_involutive in E. exact (H E).
Qed.
Lemma joined_line_spec t : Forall (fun s => (fst s < n)%nat) (leaves t) -> (forall m rv, t = LLeaf m rv -> rv = false) ->
  joined_line lns t = glue (map (oriented lns) (leaves t)).
Proof.
  intros H Hl. destruct t as [k rv|l r rv]; cbn [joined_line].
  - rewrite (Hl _ _ eq_refl). cbn [leaves map glue concat]. rewrite app_nil_r. reflexivity.
  - rewrite emit_spec; [reflexivity|]. apply Forall_forall. intros s Hs. apply ori_nonempty, (proj1 (Forall_forall _ _) H), Hs.
Qed.

(** the ends of a glued route *)
Lemma glue_snoc ls l : ls <> [] -> glue (ls ++ [l]) = glue ls ++ tl l.
Proof. destruct ls as [|a ls]; [congruence|]. intros _. cbn [app glue]. rewrite map_app, concat_app, <- app_assoc. cbn [map concat]. rewrite app_nil_r. reflexivity. Qed.
Lemma glue_nonempty ls : ls <> [] -> Forall (fun l => l <> []) ls -> glue ls <> [].
Proof. destruct ls as [|[|x a] ls]; intros H F; [congruence| |discriminate]. inversion F; congruence. Qed.
Lemma glue_first l ls : l <> [] -> first_pt (glue (l :: ls)) = first_pt l.
Proof. destruct l; [congruence|reflexivity]. Qed.
Lemma last_tl (a : pt) l m : m <> [] -> last (a :: l) (0, 0) = first_pt m -> last ((a :: l) ++ tl m) (0, 0) = last_pt m.
Proof.
  intros Hm E. destruct m as [|x m]; [congruence|]. cbn [tl first_pt hd] in *. unfold last_pt. destruct m as [|y m] using rev_ind.
  - rewrite app_nil_r. cbn [last]. exact E.
  - rewrite app_assoc, last_last. change (x :: m ++ [y]) with ((x :: m) ++ [y]). rewrite last_last. reflexivity.
Qed.

Lemma glue_ends r : r <> [] -> good_route lns r -> Forall (fun s => (fst s < n)%nat) r ->
  first_pt (glue (map (ori lns) r)) = start lns r /\ last_pt (glue (map (ori lns) r)) = stop_at lns r /\ glue (map (ori lns) r) <> [].
Proof.
  intros Hr G F. destruct r as [|s r] using rev_ind; [congruence|]. clear Hr IHr.
  revert s G F. induction r as [|t r IH] using rev_ind; intros s G F.
  - apply Forall_app in F as [_ F]. inversion F as [|? ? Hs _]; subst. pose proof (ori_nonempty _ Hs) as Hne.
    cbn [map app glue concat]. rewrite app_nil_r. repeat split. exact Hne.
  - apply Forall_app in F as [F1 F2]. inversion F2 as [|? ? Hs _]; subst. pose proof (ori_nonempty _ Hs) as Hne.
    apply good_app in G; [|destruct r; discriminate|discriminate]. destruct G as (G & _ & E & _).
    destruct (IH t G F1) as (A & B & C). rewrite map_app. cbn [map]. rewrite glue_snoc by (destruct r; discriminate).
    set (g := glue (map (ori lns) (r ++ [t]))) in *. split; [|split].
    + rewrite start_app by (destruct r; discriminate). rewrite <- A. destruct g; [congruence|reflexivity].
    + rewrite stop_snoc. destruct g as [|x gg] eqn:Eg; [congruence|]. unfold last_pt at 1. apply last_tl; [exact Hne|].
      unfold last_pt in B. rewrite B, E. reflexivity.
    + destruct g; [congruence|discriminate].
Qed.

(** ** segments *)
Lemma segments_app l m : l <> [] -> m <> [] -> last_pt l = first_pt m -> segments (l ++ tl m) = segments l ++ segments m.
Proof.
  induction l as [|a l IH]; intros Hl Hm E; [congruence|]. destruct l as [|b l].
  - destruct m as [|x m]; [congruence|]. cbn in E. subst x. reflexivity.
  - cbn [app segments] in *. rewrite <- IH; [reflexivity|discriminate|exact Hm|exact E].
Qed.
Lemma segments_glue r : r <> [] -> good_route lns r -> Forall (fun s => (fst s < n)%nat) r ->
  segments (glue (map (ori lns) r)) = flat_map (fun s => segments (ori lns s)) r.
Proof.
  intros Hr G F. destruct r as [|s r] using rev_ind; [congruence|]. clear Hr IHr.
  revert s G F. induction r as [|t r IH] using rev_ind; intros s G F.
  - cbn [map app glue concat flat_map]. rewrite !app_nil_r. reflexivity.
  - pose proof (proj1 (Forall_app _ _ _) F) as [F1 F2]. inversion F2 as [|? ? Hs _]; subst. pose proof (ori_nonempty _ Hs) as Hne.
    apply good_app in G; [|destruct r; discriminate|discriminate]. destruct G as (G & _ & E & _).
    assert (Hn : r ++ [t] <> []) by (destruct r; discriminate).
    destruct (glue_ends (r ++ [t]) Hn G F1) as (_ & B & C).
    rewrite map_app. cbn [map]. rewrite glue_snoc by (destruct r; discriminate).
    rewrite segments_app; [|exact C|exact Hne|rewrite B, E; reflexivity].
    rewrite (IH t G F1). rewrite (flat_map_app _ (r ++ [t]) [s]). cbn [flat_map]. rewrite app_nil_r. reflexivity.
Qed.
End Lines.

Lemma undirected_swap p q : undirected (p, q) = undirected (q, p).
Proof.
  destruct p as [a b], q as [c d]. unfold undirected. cbn [fst snd].
  destruct ((c <? a) || ((c =? a) && (d <? b))) eqn:E1, ((a <? c) || ((a =? c) && (b <? d))) eqn:E2; try reflexivity; [lia|].
  assert (a = c /\ b = d) as [-> ->] by lia. reflexivity.
Qed.
Lemma segments_snoc l a b : segments ((l ++ [a]) ++ [b]) = segments (l ++ [a]) ++ [(a, b)].
Proof.
  induction l as [|x l IH]; [reflexivity|]. destruct l as [|y l]; [reflexivity|]. cbn [app segments] in *. rewrite IH. reflexivity.
Qed.
Lemma segments_rev l : Permutation (map undirected (segments (rev l))) (map undirected (segments l)).
Proof.
  induction l as [|a l IH]; [reflexivity|]. destruct l as [|b l]; [reflexivity|]. cbn [rev segments map] in *.
  rewrite segments_snoc, map_app. cbn [map]. rewrite IH, (undirected_swap b a). symmetry. apply Permutation_cons_append.
Qed.

Lemma segments_oriented lns s : Permutation (map undirected (segments (ori lns s))) (map undirected (segments (nth (fst s) lns []))).
Proof. unfold ori, oriented. destruct (snd s); [apply segments_rev|reflexivity]. Qed.

Lemma flat_map_seq {A B} (f : A -> list B) d (l : list A) : flat_map (fun k => f (nth k l d)) (seq 0 (length l)) = flat_map f l.
Proof.
  assert (H : forall k0 pre, length pre = k0 -> flat_map (fun k => f (nth k (pre ++ l) d)) (seq k0 (length l)) = flat_map f l).
  { induction l as [|a l IH]; intros k0 pre Hp; cbn [length seq flat_map]; [reflexivity|].
    f_equal; [f_equal; rewrite app_nth2, Hp, Nat.sub_diag by lia; reflexivity|].
    specialize (IH (S k0) (pre ++ [a])). rewrite <- app_assoc in IH. apply IH. rewrite app_length, Hp. cbn [length]. lia. }
  apply (H O []). reflexivity.
Qed.
Lemma map_flat_map {A B C} (g : B -> C) (f : A -> list B) l : map g (flat_map f l) = flat_map (fun a => map g (f a)) l.
Proof. induction l as [|a l IH]; cbn [flat_map map]; [reflexivity|]. rewrite map_app, IH. reflexivity. Qed.
Lemma flat_map_perm {A B} (f g : A -> list B) l : (forall a, In a l -> Permutation (f a) (g a)) -> Permutation (flat_map f l) (flat_map g l).
Proof.
  induction l as [|a l IH]; intros H; cbn [flat_map]; [reflexivity|]. apply Permutation_app; [apply H; left; reflexivity|].
  apply IH. intros b Hb. apply H. right. exact Hb.
Qed.

Lemma segments_preserved lns out : Forall line_ok lns -> joined_from lns out ->
  Permutation (map undirected (flat_map segments out)) (map undirected (flat_map segments lns)).
Proof.
  intros Hok (routes & HP & HF).
  assert (Hlt : Forall (fun s => (fst s < length lns)%nat) (concat routes)).
  { apply Forall_forall. intros s Hs. apply (in_map fst) in Hs. apply (Permutation_in _ HP) in Hs. apply in_seq in Hs. lia. }
  transitivity (flat_map (fun s => map undirected (segments (ori lns s))) (concat routes)).
  - clear HP. induction HF as [|r o routes out (Hr & G & ->) HF IH]; [reflexivity|].
    cbn [concat flat_map] in *. apply Forall_app in Hlt as [H1 H2]. rewrite map_app, flat_map_app. apply Permutation_app; [|apply IH, H2].
    change (oriented lns) with (ori lns). rewrite (segments_glue lns Hok r Hr G H1), map_flat_map. reflexivity.
  - rewrite map_flat_map, <- (flat_map_seq (fun l => map undirected (segments l)) [] lns).
    rewrite (flat_map_perm _ (fun s => map undirected (segments (nth (fst s) lns [])))) by (intros s _; apply segments_oriented).
    rewrite <- (Permutation_flat_map (fun k => map undirected (segments (nth k lns []))) HP).
    rewrite flat_map_concat_map, (flat_map_concat_map _ (map fst _)), map_map. reflexivity.
Qed.

(** ** one group *)
Lemma make_handles_spec ls : Forall (fun l => l <> []) ls -> forall k, exists hs, make_handles k ls = Ok hs /\ length hs = length ls /\
  forall i, (i < length ls)%nat -> handle_at hs i = Some (JL (first_pt (nth i ls [])) (last_pt (nth i ls [])) (LLeaf (k + i) false)).
Proof.
  induction 1 as [|l ls Hl _ IH]; intros k; cbn [make_handles].
  - exists []. split; [reflexivity|]. split; [reflexivity|]. intros i Hi. cbn [length] in Hi. lia.
  - destruct l as [|p l]; [congruence|]. cbn [make_handle bind]. destruct (IH (S k)) as (hs & E & HL & H). rewrite E. cbn [bind].
    eexists. split; [reflexivity|]. split; [cbn [length]; lia|]. intros [|i] Hi.
    + unfold handle_at. cbn [nth]. rewrite Nat.add_0_r. unfold first_pt, last_pt. cbn [hd]. do 2 f_equal.
      clear. revert p. induction l as [|q l IH]; intros p; [reflexivity|]. change (last (p :: q :: l) p) with (last (q :: l) p). change (last (p :: q :: l) (0, 0)) with (last (q :: l) (0, 0)).
      destruct l as [|z l]; [reflexivity|]. assert (forall d1 d2, last (q :: z :: l) d1 = last (q :: z :: l) d2) as X; [|apply X].
      clear. revert q z. induction l as [|a l IH]; intros q z d1 d2; [reflexivity|]. change (last (z :: a :: l) d1 = last (z :: a :: l) d2). apply IH.
    + unfold handle_at in *. cbn [nth length] in *. rewrite H by lia. replace (k + S i)%nat with (S k + i)%nat by lia. reflexivity.
Qed.

Lemma handle_list_ext (a b : handles) : length a = length b -> (forall i, handle_at a i = handle_at b i) -> a = b.
Proof. intros HL H. apply (nth_ext _ _ None None HL). intros i _. apply H. Qed.

Definition init_handles (lns : list line) : handles :=
  map (fun k => Some (JL (first_pt (nth k lns [])) (last_pt (nth k lns [])) (LLeaf k false))) (seq 0 (length lns)).
Lemma init_at lns k : (k < length lns)%nat -> handle_at (init_handles lns) k = Some (JL (first_pt (nth k lns [])) (last_pt (nth k lns [])) (LLeaf k false)).
Proof.
  intros Hk. unfold handle_at, init_handles. erewrite nth_indep by (rewrite map_length, seq_length; exact Hk).
  rewrite (map_nth (fun k => Some (JL (first_pt (nth k lns [])) (last_pt (nth k lns [])) (LLeaf k false))) _ O).
  rewrite seq_nth by exact Hk. reflexivity.
Qed.
Lemma init_length lns : length (init_handles lns) = length lns.
Proof. unfold init_handles. rewrite map_length, seq_length. reflexivity. Qed.
Lemma make_handles_init lns : Forall line_ok lns -> make_handles 0 lns = Ok (init_handles lns).
Proof.
  intros Hok. destruct (make_handles_spec lns) with (k := O) as (hs & E & HL & H).
  { eapply Forall_impl; [|exact Hok]. intros l Hl. apply Hl. }
  rewrite E. f_equal. apply handle_list_ext; [rewrite init_length; exact HL|]. intros i.
  destruct (Nat.lt_ge_cases i (length lns)) as [Hi|Hi].
  - rewrite H, init_at by exact Hi. reflexivity.
  - unfold handle_at. rewrite !nth_overflow; [reflexivity| |]; rewrite ?init_length, ?HL; exact Hi.
Qed.

Lemma init_some lns k j : handle_at (init_handles lns) k = Some j -> (k < length lns)%nat /\ j = JL (first_pt (nth k lns [])) (last_pt (nth k lns [])) (LLeaf k false).
Proof.
  intros E. pose proof (at_lt _ _ _ E) as Hk. rewrite init_length in Hk. split; [exact Hk|]. rewrite init_at in E by exact Hk. congruence.
Qed.
Lemma cr_init lns : cr (init_handles lns) = seq 0 (length lns).
Proof.
  unfold cr, init_handles. rewrite flat_map_concat_map, map_map. cbn [ids j_tree leaves map fst].
  induction (seq 0 (length lns)) as [|k l IH]; [reflexivity|]. cbn [map concat app]. rewrite IH. reflexivity.
Qed.
Lemma init_jinv lns : Forall line_ok lns -> jinv lns 0 (init_handles lns).
Proof.
  intros Hok. split; [split; [apply init_length|split]|split].
  - rewrite cr_init. reflexivity.
  - intros k j E. apply init_some in E as [Hk ->]. unfold handle_ok. cbn [ids j_tree leaves map fst j_from j_to start stop_at last ori oriented snd].
    split; [left; reflexivity|]. split; [exact I|]. split; [left; reflexivity|]. split; [left; reflexivity|]. intros m rv E. injection E as <- <-. reflexivity.
  - intros k _ r E. apply tr_inv in E as (j & E & ->). apply init_some in E as [_ ->]. reflexivity.
  - intros a Ha. lia.
Qed.
Lemma init_index lns srt : Forall line_ok lns -> sorts lentry_ltb srt ->
  let idx := end_index srt (init_handles lns) in
  StronglySorted (fun a b => lentry_ltb a b = true) idx /\
  forall p k, In (p, k) idx <-> (k < length lns)%nat /\ touches p (nth k lns []).
Proof.
  intros Hok Hs idx. unfold idx, end_index. destruct (Hs (line_ends 0 (init_handles lns))) as [P O]. split; [apply lunique_sorted, O|].
  intros p k. rewrite lunique_In. rewrite (Permutation_in' eq_refl P), line_ends_In. rewrite Nat.sub_0_r. unfold touches. split.
  - intros (_ & j & E & H). apply init_some in E as [Hk ->]. auto.
  - intros (Hk & H). split; [lia|]. rewrite init_at by exact Hk. eexists. split; [reflexivity|]. exact H.
Qed.

Definition somes (hs : handles) : list jline := flat_map (fun h => match h with Some j => [j] | None => [] end) hs.
Lemma joined_geometry_somes lns hs : joined_geometry lns hs = map (fun j => joined_line lns (j_tree j)) (somes hs).
Proof. unfold somes. induction hs as [|[j|] hs IH]; cbn [joined_geometry flat_map app map]; rewrite ?IH; reflexivity. Qed.
Lemma somes_In hs j : In j (somes hs) -> exists k, handle_at hs k = Some j.
Proof.
  unfold somes. intros H. apply in_flat_map in H as (h & Hh & Hj). destruct h as [j'|]; [|destruct Hj]. destruct Hj as [->|[]].
  apply (In_nth _ _ None) in Hh as (k & _ & E). exists k. exact E.
Qed.
Lemma cr_somes hs : cr hs = map fst (concat (map (fun j => leaves (j_tree j)) (somes hs))).
Proof.
  unfold cr, somes. induction hs as [|[j|] hs IH]; cbn [flat_map ids app map concat]; [reflexivity| |exact IH].
  rewrite map_app, IH. reflexivity.
Qed.
Lemma somes_pairs (P : jline -> jline -> Prop) hs :
  (forall a b ja jb, a <> b -> handle_at hs a = Some ja -> handle_at hs b = Some jb -> P ja jb) -> ForallOrdPairs P (somes hs).
Proof.
  unfold somes. induction hs as [|h hs IH]; intros H; cbn [flat_map]; [constructor|].
  assert (IH' : ForallOrdPairs P (somes hs)).
  { apply IH. intros a b ja jb Hab Ea Eb. apply (H (S a) (S b) ja jb); [lia|exact Ea|exact Eb]. }
  destruct h as [j|]; cbn [app]; [|exact IH']. constructor; [|exact IH'].
  apply Forall_forall. intros j' Hj'. apply somes_In in Hj' as (k & E). apply (H O (S k)); [discriminate|reflexivity|exact E].
Qed.
Lemma fop_map {A B} (f : A -> B) (P : B -> B -> Prop) l : ForallOrdPairs (fun a b => P (f a) (f b)) l -> ForallOrdPairs P (map f l).
Proof.
  induction 1 as [|a l Ha _ IH]; cbn [map]; constructor; [|exact IH]. apply Forall_forall. intros b Hb. apply in_map_iff in Hb as (x & <- & Hx).
  rewrite Forall_forall in Ha. apply Ha, Hx.
Qed.

Lemma join_group_main srt lns : Forall line_ok lns -> sorts lentry_ltb srt ->
  exists out, join_group srt lns = Ok out /\ joined_from lns out /\ fully_joined lns out.
Proof.
  intros Hok Hs. unfold join_group, join_lines. rewrite make_handles_init by exact Hok. cbn [bind].
  destruct (init_index lns srt Hok Hs) as [Hsorted Hidx]. set (idx := end_index srt (init_handles lns)) in *.
  destruct (join_each_spec lns Hok idx Hsorted Hidx (length (init_handles lns)) 0 _ (init_jinv lns Hok)) as (hs & E & HJ & HL).
  rewrite E. cbn [bind]. eexists. split; [reflexivity|]. rewrite joined_geometry_somes.
  pose proof HJ as (Hi & _ & HS). pose proof Hi as (_ & HP & HO).
  assert (Hlt : forall k j, handle_at hs k = Some j -> Forall (fun s => (fst s < length lns)%nat) (leaves (j_tree j))).
  { intros k j Ej. apply Forall_forall. intros s Hs'. apply (hinv_lt lns hs k); [exact Hi|]. rewrite Ej. cbn [ids]. apply in_map, Hs'. }
  assert (HJl : forall k j, handle_at hs k = Some j -> joined_line lns (j_tree j) = glue (map (oriented lns) (leaves (j_tree j)))).
  { intros k j Ej. apply joined_line_spec; [exact Hok|eapply Hlt, Ej|]. apply (HO _ _ Ej). }
  split.
  - exists (map (fun j => leaves (j_tree j)) (somes hs)). split; [rewrite <- cr_somes; exact HP|].
    assert (Hall : Forall (fun j => exists k, handle_at hs k = Some j) (somes hs)) by (apply Forall_forall; intros j Hj; apply somes_In, Hj).
    induction Hall as [|j l (k & Ej) _ IH]; cbn [map]; constructor; [|exact IH]. split; [apply leaves_nonempty|].
    split; [apply (HO _ _ Ej)|]. eapply HJl, Ej.
  - apply fop_map. apply somes_pairs. intros a b ja jb Hab Ea Eb p Ta Tb Hd.
    rewrite (HJl _ _ Ea) in *. rewrite (HJl _ _ Eb) in *.
    destruct (glue_ends lns Hok _ (leaves_nonempty (j_tree ja)) (proj1 (proj2 (HO _ _ Ea))) (Hlt _ _ Ea)) as (A1 & A2 & _).
    destruct (glue_ends lns Hok _ (leaves_nonempty (j_tree jb)) (proj1 (proj2 (HO _ _ Eb))) (Hlt _ _ Eb)) as (B1 & B2 & _).
    change (oriented lns) with (ori lns) in *. unfold touches, closed_line in *. rewrite A1, A2 in *. rewrite B1, B2 in *.
    assert (Ha : (a < 0 + length (init_handles lns))%nat) by (pose proof (at_lt _ _ _ Ea); lia).
    destruct (HS a Ha _ p (tr_some _ _ _ Ea) Ta Hd _ b _ (tr_some _ _ _ Ea) ltac:(congruence) (tr_some _ _ _ Eb) Tb) as [H|H]; auto.
Qed.
