(** Joining lines: the end point index, routes, and the invariant of join_lines. *)
From Coq Require Import Permutation Sorting.Sorted.
From Verif Require Import Base BaseProof ModelTile ModelCodec ModelGeom ModelFeature ModelAggregate SpecDict SpecAggregate.
Open Scope Z_scope.

Lemma pt_eqb_spec a b : pt_eqb a b = true <-> a = b.
Proof.
  destruct a as [x y], b as [x' y']. unfold pt_eqb. cbn [fst snd].
  rewrite Bool.andb_true_iff, !Z.eqb_eq. split; [intros [-> ->]; reflexivity|intros H; injection H as -> ->; auto].
Qed.
Lemma pt_eqb_refl a : pt_eqb a a = true.
Proof. apply pt_eqb_spec. reflexivity. Qed.
Lemma pt_eqb_no a b : pt_eqb a b = false <-> a <> b.
Proof. rewrite <- (Bool.not_true_iff_false (pt_eqb a b)), pt_eqb_spec. tauto. Qed.
Lemma pt_dec (a b : pt) : {a = b} + {a <> b}.
Proof. destruct (pt_eqb a b) eqn:E; [left; apply pt_eqb_spec|right; apply pt_eqb_no]; exact E. Qed.
Lemma pt_ltb_irr a : pt_ltb a a = false.
Proof. unfold pt_ltb. lia. Qed.
Lemma pt_total a b : pt_ltb a b = false -> pt_ltb b a = false -> a = b.
Proof. destruct a, b. unfold pt_ltb. cbn [fst snd]. intros. f_equal; lia. Qed.

(** ** handles *)
Lemma set_length hs k v : length (set_handle hs k v) = length hs.
Proof. revert k. induction hs as [|h hs IH]; intros [|k]; cbn [set_handle length]; auto. Qed.
Lemma at_set_same hs k v : (k < length hs)%nat -> handle_at (set_handle hs k v) k = v.
Proof.
  unfold handle_at. revert k. induction hs as [|h hs IH]; intros [|k] H; cbn [set_handle nth length] in *; try lia; [reflexivity|].
  apply IH. lia.
Qed.
Lemma at_set_other hs k v i : i <> k -> handle_at (set_handle hs k v) i = handle_at hs i.
Proof.
  unfold handle_at. revert k i. induction hs as [|h hs IH]; intros [|k] [|i] H; cbn [set_handle nth]; try reflexivity; try lia.
  apply IH. lia.
Qed.
Lemma at_lt hs k j : handle_at hs k = Some j -> (k < length hs)%nat.
Proof. unfold handle_at. intros H. destruct (Nat.lt_ge_cases k (length hs)); [assumption|]. rewrite nth_overflow in H by assumption. discriminate. Qed.

(** ** the end point index *)
Lemma line_ends_In hs k0 p k : In (p, k) (line_ends k0 hs) <->
  (k0 <= k)%nat /\ exists j, handle_at hs (k - k0) = Some j /\ (j_from j = p \/ j_to j = p).
Proof.
  revert k0. induction hs as [|h hs IH]; intros k0; cbn [line_ends].
  - cbn [In]. split; [tauto|]. intros (_ & j & H & _). unfold handle_at in H. destruct (k - k0)%nat; discriminate.
  - assert (Hn : forall k1, (S k0 <= k1)%nat -> handle_at (h :: hs) (k1 - k0) = handle_at hs (k1 - S k0)).
    { intros k1 Hk. unfold handle_at. replace (k1 - k0)%nat with (S (k1 - S k0)) by lia. reflexivity. }
    assert (H0 : handle_at (h :: hs) (k0 - k0) = h) by (rewrite Nat.sub_diag; reflexivity).
    destruct h as [j|]; cbn [In]; rewrite ?IH.
    + split.
      * intros [E|[E|(Hk & j' & E & H)]].
        -- injection E as <- <-. split; [lia|]. exists j. auto.
        -- injection E as <- <-. split; [lia|]. exists j. auto.
        -- split; [lia|]. exists j'. rewrite Hn by lia. auto.
      * intros (Hk & j' & E & H). destruct (Nat.eq_dec k k0) as [->|Ne].
        -- rewrite H0 in E. injection E as <-. destruct H as [<-|<-]; auto.
        -- right; right. split; [lia|]. exists j'. rewrite <- Hn by lia. auto.
    + split.
      * intros (Hk & j' & E & H). split; [lia|]. exists j'. rewrite Hn by lia. auto.
      * intros (Hk & j' & E & H). destruct (Nat.eq_dec k k0) as [->|Ne].
        -- rewrite H0 in E. discriminate.
        -- split; [lia|]. exists j'. rewrite <- Hn by lia. auto.
Qed.

Lemma lentry_eqb_spec a b : lentry_eqb a b = true <-> a = b.
Proof.
  destruct a as [p k], b as [q m]. unfold lentry_eqb. cbn [fst snd]. rewrite Bool.andb_true_iff, pt_eqb_spec, Nat.eqb_eq.
  split; [intros [-> ->]; reflexivity|intros H; injection H as -> ->; auto].
Qed.
Lemma lentry_ltb_asym a b : lentry_ltb a b = true -> lentry_ltb b a = false.
Proof. unfold lentry_ltb, pt_ltb, pt_eqb. lia. Qed.
Lemma lentry_total a b : lentry_ltb a b = false -> lentry_ltb b a = false -> a = b.
Proof.
  destruct a as [[x y] k], b as [[x' y'] k']. unfold lentry_ltb, pt_ltb, pt_eqb. cbn [fst snd]. intros.
  assert (x = x' /\ y = y' /\ k = k') as (-> & -> & ->) by lia. reflexivity.
Qed.
Lemma lentry_le_trans a b c : lentry_ltb b a = false -> lentry_ltb c b = false -> lentry_ltb c a = false.
Proof. unfold lentry_ltb, pt_ltb, pt_eqb. lia. Qed.

Lemma lunique_In l e : In e (lunique l) <-> In e l.
Proof.
  induction l as [|a [|b l] IH]; cbn [lunique]; [tauto..|]. fold lunique in *.
  destruct (lentry_eqb a b) eqn:E.
  - apply lentry_eqb_spec in E. subst b. change (lunique (a :: l)) with (lunique (a :: l)) in *. rewrite IH. cbn [In]. tauto.
  - change (In e (a :: lunique (b :: l)) <-> In e (a :: b :: l)). cbn [In] in *. rewrite IH. tauto.
Qed.
Lemma lunique_sorted l : StronglySorted (fun a b => lentry_ltb b a = false) l ->
  StronglySorted (fun a b => lentry_ltb a b = true) (lunique l).
Proof.
  intros Hs. induction Hs as [|a l Hs IH Ha]; [constructor|]. destruct l as [|b l]; [repeat constructor|].
  change (lunique (a :: b :: l)) with (if lentry_eqb a b then lunique (b :: l) else a :: lunique (b :: l)).
  destruct (lentry_eqb a b) eqn:E; [exact IH|]. constructor; [exact IH|].
  apply Forall_forall. intros e He. apply (proj1 (lunique_In _ _)) in He. rewrite Forall_forall in Ha.
  destruct (lentry_ltb a e) eqn:El; [reflexivity|].
  pose proof (Ha e He) as H1. pose proof (lentry_total _ _ El H1) as ->.
  exfalso. assert (e = b).
  { destruct He as [->|He]; [reflexivity|]. inversion Hs as [|? ? _ Hb]; subst. rewrite Forall_forall in Hb.
    apply lentry_total; [exact (Hb e He)|apply (Ha b); left; reflexivity]. }
  subst e. rewrite (proj2 (lentry_eqb_spec b b) eq_refl) in E. discriminate.
Qed.

Lemma while_at_filter pos es : StronglySorted (fun a b => lentry_ltb a b = true) es ->
  (forall e, In e es -> pt_ltb (fst e) pos = false) ->
  while_at pos es = filter (fun e => pt_eqb (fst e) pos) es.
Proof.
  induction 1 as [|a es Hs IH Ha]; intros Hl; cbn [while_at filter]; [reflexivity|].
  destruct (pt_eqb (fst a) pos) eqn:E; [f_equal; apply IH; intros; apply Hl; right; assumption|].
  assert (Hn : forall e, In e es -> pt_eqb (fst e) pos = false).
  { intros e He. rewrite Forall_forall in Ha. specialize (Ha e He). pose proof (Hl a (or_introl eq_refl)). pose proof (Hl e (or_intror He)).
    revert Ha H H0 E. unfold lentry_ltb, pt_ltb, pt_eqb. lia. }
  clear -Hn. induction es as [|e es IH]; cbn [filter]; [reflexivity|]. rewrite (Hn e) by (left; reflexivity). apply IH.
  intros; apply Hn; right; assumption.
Qed.
Lemma entries_filter pos idx : StronglySorted (fun a b => lentry_ltb a b = true) idx ->
  entries_at pos idx = filter (fun e => pt_eqb (fst e) pos) idx.
Proof.
  unfold entries_at. induction 1 as [|a idx Hs IH Ha]; cbn [from_bound]; [reflexivity|].
  destruct (pt_ltb (fst a) pos) eqn:E.
  - rewrite IH. cbn [filter]. replace (pt_eqb (fst a) pos) with false by (unfold pt_ltb, pt_eqb in *; lia). reflexivity.
  - apply while_at_filter; [constructor; assumption|]. intros e [<-|He]; [exact E|].
    rewrite Forall_forall in Ha. specialize (Ha e He). revert Ha E. unfold lentry_ltb, pt_ltb, pt_eqb. lia.
Qed.

Lemma sorted_NoDup idx : StronglySorted (fun a b => lentry_ltb a b = true) idx -> NoDup idx.
Proof.
  induction 1 as [|a idx Hs IH Ha]; constructor; [|assumption]. intros Hi. rewrite Forall_forall in Ha. specialize (Ha a Hi).
  rewrite (lentry_ltb_asym _ _ Ha) in Ha. discriminate.
Qed.

(** ** routes and their ends *)
Section Lines.
Variable lns : list line.
Hypothesis Hok : Forall line_ok lns.
Let n := length lns.

Definition ori (s : nat * bool) : line := oriented lns s.
Definition start (r : route) : pt := match r with [] => (0, 0) | a :: _ => first_pt (ori a) end.
Definition stop_at (r : route) : pt := match r with [] => (0, 0) | _ => last_pt (ori (last r (O, false))) end.
Definition touching (p : pt) : list nat := filter (fun k => touchesb p (nth k lns [])) (seq 0 n).

Lemma touchesb_spec p l : touchesb p l = true <-> touches p l.
Proof. unfold touchesb, touches. rewrite Bool.orb_true_iff, !pt_eqb_spec. tauto. Qed.
Lemma touching_In p k : In k (touching p) <-> (k < n)%nat /\ touches p (nth k lns []).
Proof. unfold touching. rewrite filter_In, in_seq, touchesb_spec. intuition lia. Qed.
Lemma touching_NoDup p : NoDup (touching p).
Proof. apply NoDup_filter, seq_NoDup. Qed.
Lemma filter_seq_length {A} (f : A -> bool) (l : list A) d k0 :
  length (filter (fun k => f (nth (k - k0) l d)) (seq k0 (length l))) = length (filter f l).
Proof.
  revert k0. induction l as [|a l IH]; intros k0; cbn [length seq filter]; [reflexivity|].
  rewrite Nat.sub_diag. change (nth 0 (a :: l) d) with a.
  assert (E : filter (fun k => f (nth (k - k0) (a :: l) d)) (seq (S k0) (length l)) = filter (fun k => f (nth (k - S k0) l d)) (seq (S k0) (length l))).
  { apply filter_ext_in. intros k Hk. apply in_seq in Hk. replace (k - k0)%nat with (S (k - S k0)) by lia. reflexivity. }
  rewrite E. destruct (f a); cbn [length]; rewrite IH; reflexivity.
Qed.
Lemma degree_touching p : degree lns p = length (touching p).
Proof.
  unfold degree, touching, n. rewrite <- (filter_seq_length (touchesb p) lns [] 0). f_equal. apply filter_ext. intros k. rewrite Nat.sub_0_r. reflexivity.
Qed.
Lemma three_touch p a b c : degree lns p = 2%nat -> In a (touching p) -> In b (touching p) -> In c (touching p) ->
  a <> b -> a <> c -> b <> c -> False.
Proof.
  intros Hd Ha Hb Hc H1 H2 H3. rewrite degree_touching in Hd.
  assert (HN : NoDup [a; b; c]) by (repeat constructor; cbn [In]; intuition).
  pose proof (NoDup_incl_length HN (l' := touching p)) as H. cbn [length] in H.
  assert (incl [a; b; c] (touching p)) by (intros x [<-|[<-|[<-|[]]]]; assumption). specialize (H H0). lia.
Qed.

Lemma first_rev l : first_pt (rev l) = last_pt l.
Proof.
  unfold first_pt, last_pt. destruct l as [|a l] using rev_ind; [reflexivity|]. rewrite rev_app_distr, last_last. reflexivity.
Qed.
Lemma last_rev l : last_pt (rev l) = first_pt l.
Proof. rewrite <- (rev_involutive l) at 2. symmetry. apply first_rev. Qed.
Definition fl (s : nat * bool) : nat * bool := (fst s, negb (snd s)).
Lemma ori_flip s : ori (fl s) = rev (ori s).
Proof. destruct s as [k []]; unfold ori, oriented, fl; cbn [fst snd negb]; [rewrite rev_involutive|]; reflexivity. Qed.
Lemma first_flip s : first_pt (ori (fl s)) = last_pt (ori s).
Proof. rewrite ori_flip. apply first_rev. Qed.
Lemma last_flip s : last_pt (ori (fl s)) = first_pt (ori s).
Proof. rewrite ori_flip. apply last_rev. Qed.
Lemma ori_touch s p : first_pt (ori s) = p \/ last_pt (ori s) = p <-> touches p (nth (fst s) lns []).
Proof.
  destruct s as [k []]; unfold ori, oriented, touches; cbn [fst snd]; rewrite ?first_rev, ?last_rev; tauto.
Qed.

Definition rflip (r : route) : route := rev (map fl r).
Lemma rflip_app a b : rflip (a ++ b) = rflip b ++ rflip a.
Proof. unfold rflip. rewrite map_app, rev_app_distr. reflexivity. Qed.
Lemma rflip_ids r : Permutation (map fst (rflip r)) (map fst r).
Proof.
  unfold rflip. rewrite map_rev, <- Permutation_rev, map_map. cbn [fl fst]. apply Permutation_refl.
Qed.
Lemma stop_snoc r s : stop_at (r ++ [s]) = last_pt (ori s).
Proof. unfold stop_at. rewrite last_last. destruct r; reflexivity. Qed.
Lemma stop_app a b : b <> [] -> stop_at (a ++ b) = stop_at b.
Proof.
  intros Hb. destruct b as [|x b] using rev_ind; [congruence|]. rewrite app_assoc, !stop_snoc. reflexivity.
Qed.
Lemma start_app a b : a <> [] -> start (a ++ b) = start a.
Proof. destruct a; [congruence|reflexivity]. Qed.
Lemma start_rflip r : r <> [] -> start (rflip r) = stop_at r.
Proof.
  intros Hr. destruct r as [|s r] using rev_ind; [congruence|]. rewrite stop_snoc. unfold rflip. rewrite map_app, rev_app_distr.
  cbn [map rev app start]. apply first_flip.
Qed.
Lemma stop_rflip r : r <> [] -> stop_at (rflip r) = start r.
Proof.
  intros Hr. destruct r as [|s r]; [congruence|]. unfold rflip. cbn [map rev start]. rewrite stop_snoc. apply last_flip.
Qed.
Lemma rflip_nil r : rflip r = [] -> r = [].
Proof. unfold rflip. intros H. destruct r as [|s r]; [reflexivity|]. cbn [map rev] in H. destruct (rev (map fl r)); discriminate. Qed.

Lemma good_app a b : a <> [] -> b <> [] ->
  (good_route lns (a ++ b) <-> good_route lns a /\ good_route lns b /\ stop_at a = start b /\ degree lns (start b) = 2%nat).
Proof.
  intros Ha Hb. induction a as [|s a IH]; [congruence|]. destruct a as [|s' a].
  - cbn [app]. destruct b as [|t b]; [congruence|]. cbn [good_route stop_at last start]. change (oriented lns) with ori.
    split; [intros (E & D & G)|intros (_ & G & E & D)]; rewrite ?E in *; auto.
  - assert (Hn : s' :: a <> []) by discriminate. specialize (IH Hn).
    change (good_route lns ((s :: s' :: a) ++ b)) with
      (last_pt (oriented lns s) = first_pt (oriented lns s') /\ degree lns (last_pt (oriented lns s)) = 2%nat /\ good_route lns ((s' :: a) ++ b)).
    rewrite IH. cbn [good_route]. change (stop_at (s :: s' :: a)) with (stop_at ([s] ++ s' :: a)). rewrite stop_app by discriminate. tauto.
Qed.
Lemma good_rflip r : good_route lns r -> good_route lns (rflip r).
Proof.
  induction r as [|s r IH]; intros H; [exact I|]. destruct r as [|s' r]; [exact I|].
  change (s :: s' :: r) with ([s] ++ s' :: r) in *. rewrite rflip_app.
  apply good_app in H; [|discriminate..]. destruct H as (_ & G & E & D).
  apply good_app; [intros X; apply rflip_nil in X; discriminate|discriminate|].
  split; [apply IH, G|]. split; [exact I|]. rewrite stop_rflip, start_rflip by discriminate. rewrite E. auto.
Qed.

(** ** trees *)
Fixpoint leaves (t : ltree) : route :=
  match t with
  | LLeaf k rv => [(k, rv)]
  | LNode l r rv => if rv then leaves r ++ leaves l else leaves l ++ leaves r
  end.
Lemma leaves_nonempty t : leaves t <> [].
Proof. induction t as [k rv|l IHl r IHr rv]; cbn [leaves]; [discriminate|]. destruct rv; intros H; apply app_eq_nil in H; tauto. Qed.
Lemma leaves_flip t : leaves (mark_reversed t) = rflip (leaves t).
Proof.
  induction t as [k rv|l IHl r IHr rv]; cbn [leaves mark_reversed]; [reflexivity|]. rewrite IHl, IHr.
  destruct rv; cbn [negb]; rewrite rflip_app; reflexivity.
Qed.

(** ** the invariant *)
Definition ids (h : option jline) : list nat := match h with Some j => map fst (leaves (j_tree j)) | None => [] end.
Definition cr (hs : handles) : list nat := flat_map ids hs.
Definition end_is (f p : pt) : Prop := f = p \/ (f = invalid_xy /\ degree lns p <> 2%nat).

Definition handle_ok (k : nat) (j : jline) : Prop :=
  In k (ids (Some j)) /\ good_route lns (leaves (j_tree j)) /\
  end_is (j_from j) (start (leaves (j_tree j))) /\ end_is (j_to j) (stop_at (leaves (j_tree j))) /\
  (forall m rv, j_tree j = LLeaf m rv -> rv = false).
Definition hinv (hs : handles) : Prop :=
  length hs = n /\ Permutation (cr hs) (seq 0 n) /\ (forall k j, handle_at hs k = Some j -> handle_ok k j).

Lemma cr_set hs k v : (k < length hs)%nat -> Permutation (ids (handle_at hs k) ++ cr (set_handle hs k v)) (ids v ++ cr hs).
Proof.
  clear. unfold cr, handle_at. revert k. induction hs as [|h hs IH]; intros [|k] H; cbn [set_handle nth length flat_map] in *; try lia.
  - rewrite Permutation_app_swap_app. reflexivity.
  - specialize (IH k ltac:(lia)). rewrite Permutation_app_swap_app, IH, Permutation_app_swap_app. reflexivity.
Qed.
Lemma in_cr hs k x : In x (ids (handle_at hs k)) -> In x (cr hs).
Proof.
  unfold cr, handle_at. revert k. induction hs as [|h hs IH]; intros [|k] H; cbn [nth flat_map ids] in *; try contradiction; apply in_or_app; [left|right]; eauto.
Qed.
Lemma cr_unique hs a b x : NoDup (cr hs) -> In x (ids (handle_at hs a)) -> In x (ids (handle_at hs b)) -> a = b.
Proof.
  unfold cr. revert a b. induction hs as [|h hs IH]; intros a b HN Ha Hb.
  - unfold handle_at in Ha. destruct a; destruct Ha.
  - cbn [flat_map] in HN. assert (Hd : forall k y, In y (ids h) -> In y (ids (handle_at hs k)) -> False).
    { intros k y H1 H2. apply in_cr in H2. clear -HN H1 H2. induction (ids h) as [|z l IH]; [destruct H1|].
      cbn [app] in HN. inversion HN as [|? ? Hni HN']; subst. destruct H1 as [->|H1]; [|auto]. apply Hni, in_or_app. right. exact H2. }
    assert (HN' : NoDup (flat_map ids hs)).
    { clear -HN. induction (ids h) as [|z l IH]; [exact HN|]. cbn [app] in HN. inversion HN; auto. }
    destruct a as [|a], b as [|b]; cbn [handle_at nth] in Ha, Hb; [reflexivity| | |].
    + exfalso. eapply Hd; eassumption.
    + exfalso. eapply Hd; eassumption.
    + f_equal. eapply IH; eassumption.
Qed.
Lemma cr_NoDup_at hs k : NoDup (cr hs) -> NoDup (ids (handle_at hs k)).
Proof.
  unfold cr, handle_at. revert k. induction hs as [|h hs IH]; intros [|k] HN; cbn [nth ids flat_map] in *; try constructor.
  - clear -HN. induction (ids h) as [|z l IH]; [constructor|]. cbn [app] in HN. inversion HN; subst. constructor; [|auto].
    intros Hi. apply H1, in_or_app. left. exact Hi.
  - apply IH. clear -HN. induction (ids h) as [|z l IH]; [exact HN|]. cbn [app] in HN. inversion HN; auto.
Qed.
Lemma hinv_NoDup hs : hinv hs -> NoDup (cr hs).
Proof. intros (_ & P & _). eapply Permutation_NoDup; [symmetry; exact P|apply seq_NoDup]. Qed.
Lemma hinv_lt hs k x : hinv hs -> In x (ids (handle_at hs k)) -> (x < n)%nat.
Proof. intros (_ & P & _) H. apply in_cr in H. apply (Permutation_in _ P) in H. apply in_seq in H. lia. Qed.

(** the end of a route is touched by one of its lines *)
Lemma start_touch r : r <> [] -> exists m, In m (map fst r) /\ touches (start r) (nth m lns []).
Proof.
  destruct r as [|s r]; [congruence|]. intros _. exists (fst s). split; [left; reflexivity|]. cbn [start]. apply ori_touch. auto.
Qed.
Lemma stop_touch r : r <> [] -> exists m, In m (map fst r) /\ touches (stop_at r) (nth m lns []).
Proof.
  intros Hr. destruct r as [|s r] using rev_ind; [congruence|]. rewrite stop_snoc. exists (fst s).
  split; [rewrite map_app; apply in_or_app; right; left; reflexivity|]. apply ori_touch. auto.
Qed.
Definition end_of_route (p : pt) (r : route) : Prop := start r = p \/ stop_at r = p.
Lemma end_touch p r : r <> [] -> end_of_route p r -> exists m, In m (map fst r) /\ touches p (nth m lns []).
Proof. intros Hr [<-|<-]; [apply start_touch|apply stop_touch]; assumption. Qed.
(** both ends at the same point: two lines touch it *)
Lemma closed_touch p r : (2 <= length r)%nat -> NoDup (map fst r) -> start r = p -> stop_at r = p ->
  exists a b, a <> b /\ In a (map fst r) /\ In b (map fst r) /\ touches p (nth a lns []) /\ touches p (nth b lns []).
Proof.
  intros Hl HN Hs Ht. destruct r as [|s r]; [cbn in Hl; lia|]. destruct r as [|t r] using rev_ind; [cbn in Hl; lia|]. clear IHr.
  change (s :: r ++ [t]) with ((s :: r) ++ [t]) in *. rewrite stop_snoc in Ht. cbn [app start] in Hs.
  exists (fst s), (fst t). rewrite map_app in *. cbn [map app] in *. inversion HN as [|? ? Hni _]; subst. repeat split.
  - intros E. apply Hni. rewrite E. apply in_or_app. right. left. reflexivity.
  - left. reflexivity.
  - right. apply in_or_app. right. left. reflexivity.
  - apply ori_touch. auto.
  - apply ori_touch. auto.
Qed.

(** a line of a route that touches [p] is at an end, or two lines of the route touch [p] *)
Lemma touch_end r k p : good_route lns r -> NoDup (map fst r) -> In k (map fst r) -> touches p (nth k lns []) ->
  end_of_route p r \/ exists m, m <> k /\ In m (map fst r) /\ touches p (nth m lns []).
Proof.
  intros G HN Hk Ht. apply in_map_iff in Hk as (s & <- & Hs). apply in_split in Hs as (r1 & r2 & ->).
  apply ori_touch in Ht. destruct Ht as [Ht|Ht].
  - destruct r1 as [|s' r1] using rev_ind; [left; left; exact Ht|]. clear IHr1. right. exists (fst s').
    rewrite map_app in HN. cbn [map] in HN. rewrite map_app in HN. cbn [map] in HN.
    apply good_app in G; [|destruct r1; discriminate|discriminate]. destruct G as (_ & _ & E & _). rewrite stop_snoc in E. cbn [start] in E.
    split; [|split].
    + intros X. rewrite <- app_assoc in HN. apply NoDup_remove_2 in HN. apply HN. cbn [app]. rewrite X. apply in_or_app. right. left. reflexivity.
    + rewrite !map_app. apply in_or_app. left. apply in_or_app. right. left. reflexivity.
    + apply ori_touch. right. rewrite E. exact Ht.
  - destruct r2 as [|s' r2].
    + left. right. rewrite stop_snoc. exact Ht.
    + right. exists (fst s'). change (r1 ++ s :: s' :: r2) with (r1 ++ [s] ++ s' :: r2) in G. rewrite app_assoc in G.
      apply good_app in G; [|destruct r1; discriminate|discriminate]. destruct G as (_ & _ & E & _). rewrite stop_snoc in E. cbn [start] in E.
      rewrite map_app in HN. cbn [map] in HN. split; [|split].
      * intros X. apply NoDup_remove_2 in HN. apply HN. apply in_or_app. right. left. exact X.
      * rewrite map_app. cbn [map]. apply in_or_app. right. right. left. reflexivity.
      * apply ori_touch. left. rewrite <- E. exact Ht.
Qed.

(** the line found at an end of another one ends there *)
Lemma other_end hs i k me ot p : hinv hs -> handle_at hs i = Some me -> handle_at hs k = Some ot -> i <> k ->
  end_of_route p (leaves (j_tree me)) -> degree lns p = 2%nat -> touches p (nth k lns []) ->
  end_of_route p (leaves (j_tree ot)).
Proof.
  intros Hi Em Eo Hik He Hd Ht. pose proof (hinv_NoDup _ Hi) as HN. pose proof Hi as (_ & _ & HO).
  destruct (HO _ _ Eo) as (Hk & G & _). cbn [ids] in Hk.
  pose proof (cr_NoDup_at _ k HN) as HNk. rewrite Eo in HNk. cbn [ids] in HNk.
  destruct (touch_end _ _ _ G HNk Hk Ht) as [H|(m & Hmk & Hm & Htm)]; [exact H|]. exfalso.
  destruct (end_touch _ _ (leaves_nonempty _) He) as (x & Hx & Htx).
  assert (Hx1 : In x (ids (handle_at hs i))) by (rewrite Em; exact Hx).
  assert (Hk1 : In k (ids (handle_at hs k))) by (rewrite Eo; exact Hk).
  assert (Hm1 : In m (ids (handle_at hs k))) by (rewrite Eo; exact Hm).
  apply (three_touch p x k m Hd); try (apply touching_In; split; [eapply hinv_lt; eassumption|assumption]).
  - intros ->. apply Hik. eapply cr_unique; eassumption.
  - intros ->. apply Hik. eapply cr_unique; eassumption.
  - congruence.
Qed.

Lemma ends_valid k p : (k < n)%nat -> touches p (nth k lns []) -> p <> invalid_xy.
Proof.
  intros Hk Ht. pose proof (proj1 (Forall_forall _ _) Hok (nth k lns []) (nth_In _ _ Hk)) as (_ & H1 & H2).
  unfold invalid_xy. destruct Ht as [<-|<-]; assumption.
Qed.
Lemma route_end_valid hs i me p : hinv hs -> handle_at hs i = Some me -> end_of_route p (leaves (j_tree me)) -> p <> invalid_xy.
Proof.
  intros Hi Em He. destruct (end_touch _ _ (leaves_nonempty _) He) as (x & Hx & Htx). apply (ends_valid x); [|exact Htx].
  eapply hinv_lt; [exact Hi|]. rewrite Em. exact Hx.
Qed.
End Lines.
