(** Repacking: how large the file gets. *)
From Coq Require Import Permutation.
From Verif Require Import Base BaseProof ModelTile SpecTile ModelPackFile SpecPackFile ProofPackFile ModelTable ModelRepack SpecRepack ProofRepack ProofRepackRun ProofRepackEnd.
Open Scope N_scope.

Definition cap (s : pfile) : N := blen (pf_mem s).
(** the mapping only grows if the size does *)
Definition ext (s s' : pfile) : Prop := pf_size s <= pf_size s' /\ cap s' <= N.max (cap s) (pf_size s').
Lemma ext_refl s : ext s s. Proof. unfold ext. lia. Qed.
Lemma ext_trans a b c : ext a b -> ext b c -> ext a c. Proof. unfold ext. lia. Qed.
Lemma resize_cap s n : cap (pf_resize s n) = N.max (cap s) n.
Proof. unfold cap, pf_resize, blen, zeros. cbn [pf_mem]. rewrite app_length, repeat_length. unfold blen. lia. Qed.
Lemma write_len m off d : off + blen d <= blen m -> blen (write_at m off d) = blen m.
Proof. unfold write_at, blen. rewrite !app_length, firstn_length, skipn_length. lia. Qed.
Lemma insert_ext s off d s' r : pf_insert s off d = (s', r) -> ext s s' /\ pf_size s' = N.max (pf_size s) (off + blen d) /\ cap s' = N.max (cap s) (pf_size s').
Proof.
  unfold pf_insert. cbn [r_off r_size]. set (p := pf_resize s _). intros H. pose proof (f_equal fst H) as H0. cbn [fst] in H0. subst s'. clear H.
  pose proof (resize_cap s (N.max (pf_size s) (off + blen d))) as E. fold p in E. unfold cap in E. unfold ext, cap. cbn [pf_size pf_mem]. rewrite write_len by (rewrite E; lia).
  rewrite E. change (pf_size p) with (N.max (pf_size s) (off + blen d)). lia.
Qed.
Lemma slice_len m o n : o + n <= blen m -> blen (slice m o n) = n.
Proof. unfold slice, blen. rewrite firstn_length, skipn_length. lia. Qed.
Lemma move_ext s off f s' r : pf_move s off f = Ok (s', r) -> ext s s'.
Proof.
  unfold pf_move. cbn [r_off r_size]. set (p := pf_resize s _). destruct (N.leb_spec (r_off f + r_size f) (blen (pf_mem p))) as [Hl|]; [|discriminate]. intros H. apply Ok_inj in H. apply (f_equal fst) in H. cbn [fst] in H. subst s'.
  pose proof (resize_cap s (N.max (pf_size s) (off + r_size f))) as E. fold p in E. unfold cap in E. unfold ext, cap. cbn [pf_size pf_mem]. rewrite write_len; [|rewrite slice_len by exact Hl; rewrite E; lia].
  rewrite E. change (pf_size p) with (N.max (pf_size s) (off + r_size f)). lia.
Qed.
Lemma ext_same s s' : ext s s' -> pf_inv s -> pf_size s' = pf_size s -> cap s' <= cap s.
Proof. unfold ext, pf_inv, cap. lia. Qed.

(** ** defragmenting *)
Lemma move_rec_ext s off i s' : move_rec s off i = Ok s' -> ext (d_pf s) (d_pf s').
Proof. unfold move_rec. intros H. apply bind_ok in H as ([pf r] & H1 & H). apply Ok_inj in H. subst s'. cbn [d_pf]. eapply move_ext; exact H1. Qed.
Lemma refresh_pf : forall fuel k s s', refresh fuel k s = Ok s' -> d_pf s' = d_pf s.
Proof.
  induction fuel as [|f IH]; intros k s s' H; [discriminate|]. destruct s as [pf rs e fr ix df la]. cbn [refresh] in H.
  repeat match type of H with
  | (if ?b then _ else _) = _ => destruct b
  | bind _ _ = Ok _ => apply bind_ok in H as (? & _ & H)
  end; try (apply Ok_inj in H; subst s'; reflexivity); apply IH in H; exact H.
Qed.
Lemma compact_ext : forall fuel k s s', compact fuel k s = Ok s' -> ext (d_pf s) (d_pf s').
Proof.
  induction fuel as [|f IH]; intros k s s' H; [discriminate|]. change (compact (S f) k s) with
   (do s <- refresh (S f) k s; do space <- begin_space s; do l <- last_frag s;
      if space <? r_size (rec_at s l) then
        let off := insert_at s in
        do i <- next_frag s;
        do _ <- verify (off <=? r_off (rec_at s i));
        do s' <- move_rec (Dfs (d_pf s) (d_recs s) (d_end s) (d_frag s) (S (d_idx s)) (d_defrag s) (d_last s)) off i;
        compact f k (Dfs (d_pf s') (d_recs s') (d_end s') (d_frag s') (d_idx s') (d_defrag s' ++ [i]) (d_last s'))
      else Ok s) in H.
  apply bind_ok in H as (s1 & H1 & H). apply refresh_pf in H1. rewrite <- H1. apply bind_ok in H as (sp & _ & H). apply bind_ok in H as (l & _ & H). destruct (sp <? r_size (rec_at s1 l)); [|apply Ok_inj in H; subst; apply ext_refl].
  cbv zeta in H. apply bind_ok in H as (i & _ & H). apply bind_ok in H as ([] & _ & H). apply bind_ok in H as (s2 & H2 & H). apply move_rec_ext in H2. apply IH in H. cbn [d_pf] in *. eapply ext_trans; eassumption.
Qed.
Lemma unblock_ext : forall fuel k s s', unblock fuel k s = Ok s' -> ext (d_pf s) (d_pf s').
Proof.
  induction fuel as [|f IH]; intros k s s' H; [discriminate|]. change (unblock (S f) k s) with
   (do s <- refresh (S f) k s;
      if end_space s <? r_size (rec_at s k) then
        do s <- compact (S f) k s;
        let off := insert_at s in
        do i <- last_frag s;
        do _ <- verify (off <=? r_off (rec_at s i));
        do s' <- move_rec (Dfs (d_pf s) (d_recs s) (d_end s) (removelast (d_frag s)) (d_idx s) (d_defrag s) (d_last s)) off i;
        unblock f k (Dfs (d_pf s') (d_recs s') (d_end s') (d_frag s') (d_idx s') (d_defrag s' ++ [i]) (d_last s'))
      else Ok s) in H.
  apply bind_ok in H as (s1 & H1 & H). apply refresh_pf in H1. rewrite <- H1. destruct (end_space s1 <? r_size (rec_at s1 k)); [|apply Ok_inj in H; subst; apply ext_refl].
  apply bind_ok in H as (s3 & H3 & H). apply compact_ext in H3. cbv zeta in H. apply bind_ok in H as (i & _ & H). apply bind_ok in H as ([] & _ & H). apply bind_ok in H as (s2 & H2 & H). apply move_rec_ext in H2. apply IH in H. cbn [d_pf] in *.
  eapply ext_trans; [exact H3|]. eapply ext_trans; eassumption.
Qed.
Lemma move_end_ext k s s' : move_end k s = Ok s' -> ext (d_pf s) (d_pf s').
Proof. unfold move_end. intros H. apply bind_ok in H as (s1 & H1 & H). apply bind_ok in H as ([] & _ & H). apply Ok_inj in H. subst s'. apply move_rec_ext in H1. exact H1. Qed.
Lemma one_ext fuel k s s' : defrag_one fuel k s = Ok s' -> ext (d_pf s) (d_pf s').
Proof.
  unfold defrag_one. intros H. apply bind_ok in H as ([] & _ & H). apply bind_ok in H as (s1 & H1 & H). apply refresh_pf in H1. rewrite <- H1. apply bind_ok in H as (b & _ & H). destruct (b =? k)%nat; [now apply move_end_ext in H|].
  apply bind_ok in H as (s2 & H2 & H). apply unblock_ext in H2. apply move_end_ext in H. eapply ext_trans; eassumption.
Qed.
Lemma all_ext fuel : forall ks s s', defrag_all fuel ks s = Ok s' -> ext (d_pf s) (d_pf s').
Proof.
  induction ks as [|k ks IH]; intros s s' H; cbn [defrag_all] in H; [apply Ok_inj in H; subst; apply ext_refl|]. apply bind_ok in H as (s1 & H1 & H). apply one_ext in H1. apply IH in H. eapply ext_trans; eassumption.
Qed.
Lemma defrag_ext qsort pf rs s : defrag qsort pf rs = Ok s -> ext pf (d_pf s).
Proof. unfold defrag. cbv zeta. intros H. apply bind_ok in H as ([] & _ & H). apply bind_ok in H as ([] & _ & H). apply all_ext in H. exact H. Qed.
Lemma stash_ext : forall st pf off upd pf' off' upd', move_stash pf off upd st = Ok (pf', off', upd') -> ext pf pf'.
Proof.
  induction st as [|[t r] st IH]; intros pf off upd pf' off' upd' H; cbn [move_stash] in H.
  - apply Ok_inj in H. injection H as <- <- <-. apply ext_refl.
  - apply bind_ok in H as ([p1 r1] & H1 & H). apply move_ext in H1. apply IH in H. eapply ext_trans; eassumption.
Qed.
Lemma regroup_length ts : forall rs, length (regroup ts rs) = length ts.
Proof. induction ts as [|[t r] ts IH]; intros rs; [reflexivity|]. cbn [regroup length]. now rewrite IH. Qed.

Lemma last_In {A} (l : list A) d : l <> [] -> In (last l d) l.
Proof. intros H. rewrite (app_removelast_last d H) at 2. apply in_or_app. right. now left. Qed.

Lemma filter_le {A} (f : A -> bool) l : (length (filter f l) <= length l)%nat.
Proof. induction l as [|a l IH]; [reflexivity|]. cbn [filter]. destruct (f a); cbn [length]; lia. Qed.

Lemma rest_length g : g_tasks g <> [] -> length (g_tasks g) = S (length (g_tasks (rest_tasks g))).
Proof. intros H. cbn [rest_tasks g_tasks]. destruct (exists_last H) as (l & a & ->). rewrite removelast_last, app_length, Nat.add_comm. reflexivity. Qed.

Section Size.
Variable qsort : (nat -> nat -> bool) -> list nat -> list nat.
Variable rsort : list pack_record -> list pack_record.
Variable tsort : list task -> list task.
Variable pack : tile -> list bytes -> bytes.
Variable limit : N.
Variable batch : nat.
Hypothesis Hq : sorts_positions qsort.
Hypothesis Hr : reorders rsort.
Hypothesis Ht : reorders tsort.
Hypothesis Hp : forall t ps, pack t ps <> [].
Variable pf0 : pfile.
Variable tasks0 : list task.
Hypothesis I0 : pf_inv pf0.
Hypothesis S0small : pf_size pf0 < 2 ^ 64.
Hypothesis L0 : valid_layout pf0 (flat_map snd tasks0).
Variable B : N.
Hypothesis small : forall w, is_input pf0 tasks0 w -> blen (pack (fst w) (snd w)) <= B.

Definition left_over (s : rst) : N := N.of_nat (length (g_tasks (r_mgr s)) + length (r_fly s)).
Definition bounded (s : rst) : Prop := cap (g_pf (r_mgr s)) + left_over s * B <= cap pf0 + N.of_nat (length tasks0) * B.

Lemma insert_cap g t ps g' : pf_inv (g_pf g) -> (forall r, In r (flat_map snd (g_tasks g)) -> end_of r <= pf_size (g_pf g)) -> Forall (fun t => snd t <> []) (g_tasks g) ->
  insert_result g t (pack t ps) = Ok g' -> blen (pack t ps) <= B -> cap (g_pf g') <= cap (g_pf g) + B /\ length (g_tasks g') = length (g_tasks g).
Proof.
  intros HI HB HN H HS. unfold insert_result in H. destruct (g_tasks g) as [|t0 ts] eqn:E.
  - destruct (pf_append (g_pf g) (pack t ps)) as [pf r] eqn:EA. apply Ok_inj in H. subst g'. cbn [g_pf g_tasks]. split; [|reflexivity].
    unfold pf_append in EA. apply insert_ext in EA as (_ & E1 & E2). unfold pf_inv, cap in *. lia.
  - apply bind_ok in H as ([] & HV & H). apply verify_ok in HV. apply N.leb_le in HV. rewrite <- E in *.
    assert (HE : r_off (last (snd (last (g_tasks g) (Tile 0 0 0, []))) no_rec) <= pf_size (g_pf g)).
    { assert (HL : In (last (g_tasks g) (Tile 0 0 0, [])) (g_tasks g)). { apply last_In. rewrite E. discriminate. }
      set (q := last (g_tasks g) (Tile 0 0 0, [])) in *. pose proof (proj1 (Forall_forall _ _) HN q HL) as Hne. cbn beta in Hne.
      assert (HX : In (last (snd q) no_rec) (snd q)). { now apply last_In. }
      specialize (HB (last (snd q) no_rec) ltac:(apply in_flat_map; exists q; auto)). unfold end_of in HB. lia. }
    set (eo := r_off _) in *. destruct (N.ltb_spec (eo - g_off g) (blen (pack t ps))) as [Hl|Hl].
    + destruct (pf_append (g_pf g) (pack t ps)) as [pf r] eqn:EA. apply Ok_inj in H. subst g'. cbn [g_pf g_tasks]. split; [|reflexivity].
      unfold pf_append in EA. apply insert_ext in EA as (_ & E1 & E2). unfold pf_inv, cap in *. lia.
    + destruct (pf_insert (g_pf g) (g_off g) (pack t ps)) as [pf r] eqn:EA. apply Ok_inj in H. subst g'. cbn [g_pf g_tasks]. split; [|reflexivity].
      apply insert_ext in EA as (_ & E1 & E2). unfold pf_inv, cap in *. lia.
Qed.

Lemma size_bound s : rp_reach qsort rsort tsort pack limit batch pf0 tasks0 s -> r_pc s <> RpThrown -> bounded s.
Proof.
  induction 1 as [|s s' R IH St]; intros HT.
  - unfold bounded, left_over, rst_start. cbn [r_mgr r_fly mgr_init g_pf g_tasks length]. rewrite (Permutation_length (Ht _)), map_length.
    match goal with |- context [filter ?f ?l] => pose proof (filter_le f l) as FL; set (k := length (filter f l)) in *; clearbody k end. unfold task in *. set (k' := length tasks0) in *. clearbody k'. nia.
  - assert (HT0 : r_pc s <> RpThrown) by (intros E; inversion St; subst; discriminate E). specialize (IH HT0).
    pose proof (reach_inv _ _ _ _ limit batch Hq Hr Ht Hp _ _ I0 S0small L0 s R) as HI.
    pose proof (intact rsort tsort pack Hr Ht _ _ S0small s HI HT0) as [_ HF].
    assert (HS : sized s) by apply HI. destruct HS as (Z1 & Z2 & _ & _).
    assert (HB : forall r, In r (flat_map snd (g_tasks (r_mgr s))) -> end_of r <= pf_size (g_pf (r_mgr s))).
    { destruct HI as (_ & _ & P). intros r Hr'. assert (P' : phase_a pf0 s \/ phase_b s \/ phase_c s) by (unfold phase in P; destruct (r_pc s); tauto).
      destruct P' as [(P1 & (P2 & _) & _)|[(e & lo & P1 & P2 & P3 & P4)|(P1 & _)]].
      - rewrite P1. apply (proj1 (Forall_forall _ _) P2 r Hr').
      - apply (stack_in _ _ _ _ P1) in Hr'. apply chain_le in P4. lia.
      - rewrite P1 in Hr'. destruct Hr'. }
    assert (HR : forall g : mgr, g_tasks g <> [] -> length (g_tasks g) = S (length (g_tasks (rest_tasks g)))) by exact rest_length.
    destruct St; cbn [r_pc r_mgr r_fly] in *; try congruence; unfold bounded, left_over in *; cbn [r_mgr r_fly] in *; try exact IH;
      try (rewrite HR in IH by assumption; rewrite app_length; cbn [length]; match goal with |- context [rest_tasks ?g] => change (g_pf (rest_tasks g)) with (g_pf g) end; match goal with |- context [(?k + (?a + 1))%nat] => replace (k + (a + 1))%nat with (S k + a)%nat by (clear; lia) end; exact IH);
      try (match goal with HI0 : insert_result ?g ?t (pack ?t ?ps) = Ok ?g' |- _ =>
        destruct (insert_cap g t ps g' Z1 HB Z2 HI0) as [C1 C2]; [apply (small (t, ps)), HF, in_or_app; right; now left|] end;
        rewrite C2, app_length; rewrite app_length in IH; cbn [length] in IH; nia).
    + match goal with HD0 : defragment _ _ = Ok _ |- _ => rename HD0 into HD end. unfold defragment in HD. apply bind_ok in HD as (d & HD & HE). apply Ok_inj in HE. subst g'. cbn [g_pf g_tasks]. rewrite regroup_length.
      destruct HI as (_ & _ & (P1 & P2 & _)). cbn [r_mgr] in *. rewrite P1 in HD. pose proof (defrag_ext _ _ _ _ HD) as X.
      destruct (defrag_spec qsort Hq pf0 _ I0 S0small P2) as [Q|(d' & Q & _ & _ & _ & Q2 & _)]; [congruence|]. rewrite HD in Q. apply Ok_inj in Q. subst d'. pose proof (ext_same _ _ X I0 Q2). rewrite P1 in IH. lia.
    + destruct HI as (_ & _ & (P & ET)). cbn [r_mgr] in *. match goal with HD0 : finish_stash _ = Ok _ |- _ => rename HD0 into HD end. unfold finish_stash in HD. rewrite ET in HD. cbn [is_nil verify bind] in HD. apply bind_ok in HD as ([[pf off] upd] & HD & HE).
      apply Ok_inj in HE. subst g'. cbn [fst snd g_pf g_tasks length]. rewrite ET in IH. cbn [length] in IH. pose proof (stash_ext _ _ _ _ _ _ _ HD) as X. destruct P as (e & lo & P1 & P2 & P3 & P4). unfold assigned in *. cbn [r_mgr r_out] in *. rewrite ET in P1. cbn [flat_map stack] in P1.
      destruct (move_stash_spec pack Hp pf0 I0 S0small (g_stash g) (g_pf g) (g_off g) (g_upd g) (concat out) e Z1 P4 ltac:(lia) P2) as (pf' & off' & mv & HD' & R1 & R2 & R3 & _). rewrite HD in HD'. apply Ok_inj in HD'. injection HD' as <- <- _.
      pose proof (ext_same _ _ X Z1 R2). rewrite resize_cap. unfold cap, pf_inv in *. lia.
Qed.
End Size.
