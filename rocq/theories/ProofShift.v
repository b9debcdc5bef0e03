From Verif Require Import Base BaseProof ModelTile ModelCodec ModelGeom SpecGeom.
Open Scope Z_scope.

Lemma shift_pt_scaled z p : (z <= 20)%N -> shift_pt z p = scaled z p.
Proof.
  intros H. unfold shift_pt, scaled. rewrite !Z.shiftr_div_pow2 by lia. reflexivity.
Qed.

Lemma pt_eqb_spec a b : reflect (a = b) (pt_eqb a b).
Proof.
  destruct a as [a1 a2], b as [b1 b2]. unfold pt_eqb. cbn [fst snd].
  destruct (Z.eqb_spec a1 b1), (Z.eqb_spec a2 b2); constructor; congruence.
Qed.

Lemma dedup_from_spec ps : forall last, exists n ns s,
  dedup_from last ps = s /\ no_equal_neighbours (last :: s) /\
  length ns = length s /\ Forall (fun n => (1 <= n)%nat) ns /\
  repeat last n ++ repeat_each s ns = ps.
Proof.
  induction ps as [|p ps IH]; intros last; cbn [dedup_from].
  - exists 0%nat, [], []. cbn. auto.
  - destruct (pt_eqb_spec last p) as [<-|Hne].
    + destruct (IH last) as (n & ns & s & E & H1 & H2 & H3 & H4).
      exists (S n), ns, s. repeat split; try assumption. cbn [repeat app]. now rewrite H4.
    + destruct (IH p) as (n & ns & s & E & H1 & H2 & H3 & H4).
      exists 0%nat, (S n :: ns), (p :: s). repeat split; try assumption.
      * now rewrite E.
      * cbn [length]. congruence.
      * constructor; [lia | assumption].
      * cbn [repeat app repeat_each]. now rewrite H4.
Qed.

Lemma dedup_squeezed ps : squeezed ps (dedup ps).
Proof.
  destruct ps as [|p ps]; cbn [dedup].
  - split; [exact I|]. exists []. repeat split; constructor.
  - destruct (dedup_from_spec ps p) as (n & ns & s & E & H1 & H2 & H3 & H4). rewrite E.
    split; [exact H1|]. exists (S n :: ns). repeat split.
    + cbn [length]. congruence.
    + constructor; [lia | assumption].
    + cbn [repeat_each repeat app]. now rewrite H4.
Qed.

Lemma transform_squeezed z l : (z <= 20)%N ->
  squeezed (map (scaled z) l) (transform_erase (shift_pt z) l).
Proof.
  intros H. unfold transform_erase.
  rewrite (map_ext (shift_pt z) (scaled z)) by (intros p; now apply shift_pt_scaled).
  apply dedup_squeezed.
Qed.

Lemma transform_lines z ls : (z <= 20)%N ->
  Forall2 (fun l s => squeezed (map (scaled z) l) s) ls (map (transform_erase (shift_pt z)) ls).
Proof. intros H. induction ls; cbn [map]; constructor; auto using transform_squeezed. Qed.

Lemma negb_ltb_leb n (l : line) : negb (length l <? n)%nat = long_enough n l.
Proof. unfold long_enough. destruct (Nat.ltb_spec (length l) n), (Nat.leb_spec n (length l)); lia. Qed.

Lemma shift_spec z g : (z <= 20)%N -> shifted z g (shift_geom z g).
Proof.
  intros H. destruct g as [|ps|ls|ps]; cbn [shifted shift_geom].
  - reflexivity.
  - exists (transform_erase (shift_pt z) ps). split; [now apply transform_squeezed|].
    unfold points_or_null. destruct (transform_erase _ ps); reflexivity.
  - exists (map (transform_erase (shift_pt z)) ls). split; [now apply transform_lines|].
    unfold lines_or_null.
    rewrite (filter_ext _ _ (negb_ltb_leb 2)). destruct (filter _ _); reflexivity.
  - exists (map (fun p => (transform_erase (shift_pt z) (fst p), map (transform_erase (shift_pt z)) (snd p))) ps).
    split.
    + induction ps as [|[o is] ps IH]; cbn [map]; constructor; [|exact IH].
      cbn [fst snd]. split; [now apply transform_squeezed | now apply transform_lines].
    + unfold polys_or_null.
      assert (E : filter (fun p : poly => negb (length (fst p) <? 3)%nat)
            (map (fun p : poly => (transform_erase (shift_pt z) (fst p),
                  filter (fun r => negb (length r <? 3)%nat) (map (transform_erase (shift_pt z)) (snd p)))) ps) =
          map (fun s : poly => (fst s, filter (long_enough 3) (snd s)))
           (filter (fun s : poly => long_enough 3 (fst s))
             (map (fun p : poly => (transform_erase (shift_pt z) (fst p), map (transform_erase (shift_pt z)) (snd p))) ps))).
      { induction ps as [|[o is] ps IH]; [reflexivity|]. cbn [map filter fst snd].
        rewrite negb_ltb_leb. destruct (long_enough 3 _); cbn [map filter fst snd]; [|exact IH].
        rewrite IH. f_equal. f_equal. apply filter_ext. apply negb_ltb_leb. }
      unfold poly, line in *. rewrite E. destruct (map _ (filter _ _)); reflexivity.
Qed.

(** squeezing determines its result *)
Lemma repeat_each_head p s n ns : (1 <= n)%nat -> repeat_each (p :: s) (n :: ns) = p :: (repeat p (n - 1) ++ repeat_each s ns).
Proof. destruct n as [|n]; [lia|]. intros _. cbn [repeat_each repeat app]. now rewrite Nat.sub_1_r. Qed.

Lemma squeezed_dedup_from s : forall last n ns,
  no_equal_neighbours (last :: s) -> length ns = length s -> Forall (fun n => (1 <= n)%nat) ns ->
  dedup_from last (repeat last n ++ repeat_each s ns) = s.
Proof.
  induction s as [|p s IH]; intros last n ns HN HL HF.
  - destruct ns; [|discriminate]. cbn [repeat_each]. rewrite app_nil_r.
    induction n as [|n IHn]; cbn [repeat dedup_from]; [reflexivity|].
    destruct (pt_eqb_spec last last); [exact IHn | congruence].
  - destruct ns as [|m ns]; [discriminate|]. inversion HF; subst. injection HL as HL.
    destruct HN as [Hne HN].
    induction n as [|n IHn]; cbn [repeat app].
    + rewrite repeat_each_head by assumption. cbn [dedup_from].
      destruct (pt_eqb_spec last p); [congruence|]. f_equal. now apply IH.
    + cbn [dedup_from]. destruct (pt_eqb_spec last last); [exact IHn | congruence].
Qed.

Lemma squeezed_unique l s : squeezed l s -> s = dedup l.
Proof.
  intros [HN (ns & HL & HF & <-)]. destruct s as [|p s], ns as [|n ns]; try discriminate; [reflexivity|].
  inversion HF; subst. injection HL as HL. rewrite repeat_each_head by assumption. cbn [dedup].
  f_equal. symmetry. now apply squeezed_dedup_from.
Qed.

Lemma squeezed_fun l s s' : squeezed l s -> squeezed l s' -> s = s'.
Proof. intros H1 H2. rewrite (squeezed_unique _ _ H1). symmetry. now apply squeezed_unique. Qed.
