(** Proofs about the HTTP server. *)
From Coq Require Import String Ascii.
From Coq Require Import List.
From Verif Require Import Base BaseProof ModelTile ModelServer SpecServer.
Import ListNotations.
Open Scope N_scope.

Lemma starts_with_spec p : forall s, starts_with p s = true <-> exists r, s = p ++ r.
Proof.
  induction p as [|a p IH]; intros s.
  - split; [intros _; now exists s|reflexivity].
  - destruct s as [|b s]; cbn [starts_with].
    + split; [discriminate|intros (r & H); discriminate].
    + rewrite andb_true_iff, N.eqb_eq, IH. split.
      * intros (-> & r & ->). now exists r.
      * intros (r & H). injection H as -> ->. split; [reflexivity|now exists r].
Qed.
Lemma ends_with_spec p s : ends_with p s = true <-> exists r, s = r ++ p.
Proof.
  unfold ends_with. rewrite starts_with_spec. split; intros (r & H).
  - exists (rev r). rewrite <- (rev_involutive s), H, rev_app_distr, rev_involutive. reflexivity.
  - exists (rev r). now rewrite H, rev_app_distr.
Qed.
Lemma contains_spec p : forall s, contains_str p s = true <-> exists a b, s = a ++ p ++ b.
Proof.
  induction s as [|c s IH]; cbn [contains_str]; rewrite orb_true_iff, starts_with_spec.
  - split.
    + intros [(r & H)|H]; [exists [], r; exact H|discriminate].
    + intros (a & b & H). left. symmetry in H. apply app_eq_nil in H as [-> H]. now exists b.
  - rewrite IH. split.
    + intros [(r & H)|(a & b & H)]; [exists [], r; exact H|exists (c :: a), b; now rewrite H].
    + intros ([|c' a] & b & H); [left; now exists b|right]. injection H as -> H. now exists a, b.
Qed.

(** ** parse_tile_url *)
Lemma split_ne s : split_slash s <> [].
Proof. destruct s as [|c s]; cbn [split_slash]; [discriminate|]. destruct (split_slash s); [discriminate|]. now destruct (c =? 47). Qed.
Definition stop (t : bytes) : Prop := t = [] \/ exists t', t = 47 :: t' \/ t = 0 :: t'.
Definition plain (a : bytes) : Prop := Forall (fun c => c <> 0 /\ c <> 47) a.
Lemma split_span a t : plain a -> stop t -> split_slash (c_string (a ++ t)) =
  a :: match t with 47 :: t' => split_slash (c_string t') | _ => [] end.
Proof.
  intros P St. induction P as [|c a [H0 H1] _ IH]; cbn [app].
  - destruct St as [->|(t' & [->| ->])]; try reflexivity. cbn [c_string]. change (47 =? 0) with false. cbv iota. cbn [split_slash].
    destruct (split_slash (c_string t')) eqn:E; [now apply split_ne in E|reflexivity].
  - cbn [c_string]. apply N.eqb_neq in H0, H1. rewrite H0. cbn [split_slash]. rewrite IH, H1. reflexivity.
Qed.
Lemma span s : exists a t, s = a ++ t /\ plain a /\ stop t.
Proof.
  induction s as [|c s (a & t & -> & P & St)].
  - exists [], []. repeat split; [constructor|now left].
  - destruct (N.eq_dec c 0) as [->|H0]; [exists [], (0 :: a ++ t); repeat split; [constructor|right; eexists; now right]|].
    destruct (N.eq_dec c 47) as [->|H1]; [exists [], (47 :: a ++ t); repeat split; [constructor|right; eexists; now left]|].
    exists (c :: a), t. repeat split; auto. now constructor.
Qed.
Lemma split3 s : match split_slash (c_string s) with
  | a :: b :: c :: _ => exists t, s = a ++ 47 :: b ++ 47 :: c ++ t /\ plain a /\ plain b /\ plain c /\ stop t
  | _ => forall a b c t, s = a ++ 47 :: b ++ 47 :: c ++ t -> plain a -> plain b -> plain c -> stop t -> False
  end.
Proof.
  assert (U : forall a b c t, plain a -> plain b -> plain c -> stop t ->
     exists l, split_slash (c_string (a ++ 47 :: b ++ 47 :: c ++ t)) = a :: b :: c :: l).
  { intros a b c t Pa Pb Pc St. rewrite (split_span a) by (auto; right; eexists; now left).
    rewrite (split_span b) by (auto; right; eexists; now left). rewrite (split_span c) by auto. eauto. }
  destruct (split_slash (c_string s)) as [|a [|b [|c l]]] eqn:E;
    try (intros a' b' c' t -> Pa Pb Pc St; destruct (U a' b' c' t Pa Pb Pc St) as [l E']; congruence).
  destruct (span s) as (a' & t & -> & Pa & St). rewrite split_span in E by auto.
  destruct t as [|h t]; [discriminate|].
  assert (h = 0 \/ h = 47) as [->| ->] by (destruct St as [?|(t' & [H|H])]; [discriminate|injection H; auto|injection H; auto]); [discriminate|].
  injection E as -> E. destruct (span t) as (b' & t2 & -> & Pb & St2). rewrite split_span in E by auto.
  destruct t2 as [|h t2]; [discriminate|].
  assert (h = 0 \/ h = 47) as [->| ->] by (destruct St2 as [?|(t' & [H|H])]; [discriminate|injection H; auto|injection H; auto]); [discriminate|].
  injection E as -> E. destruct (span t2) as (c' & t3 & -> & Pc & St3). rewrite split_span in E by auto.
  injection E as -> E. exists t3. auto.
Qed.

Lemma digit_plain s : digit_string s -> plain s.
Proof. apply Forall_impl. lia. Qed.
Lemma isdigit_spec s : forallb isdigit s = true <-> digit_string s.
Proof. unfold digit_string. rewrite forallb_forall, Forall_forall. unfold isdigit. split; intros H x I; specialize (H x I); lia. Qed.
Lemma digit_rev s : digit_string s -> digit_string (rev s).
Proof. unfold digit_string. intros H. rewrite Forall_forall in *. intros x I. apply H. now apply in_rev. Qed.
Lemma parse_u32_spec s : parse_u32 s = value_of s mod 2 ^ 32.
Proof.
  unfold parse_u32, value_of. assert (G : forall l a b, a = b mod 2 ^ 32 ->
    fold_left (fun v c => (v * 10 + (c - 48)) mod 2 ^ 32) l a = fold_left (fun v c => v * 10 + (c - 48)) l b mod 2 ^ 32).
  { induction l as [|c l IH]; intros a b ->; cbn [fold_left]; [reflexivity|]. apply IH.
    rewrite <- (N.add_mod_idemp_l (b mod _ * 10)), N.mul_mod_idemp_l, N.add_mod_idemp_l by discriminate. reflexivity. }
  now apply G.
Qed.
Lemma stop_rev p : stop (rev p) <-> (p = [] \/ exists q, p = q ++ [47] \/ p = q ++ [0]).
Proof.
  split.
  - intros [H|(t & [H|H])].
    + left. apply (f_equal (@rev N)) in H. now rewrite rev_involutive in H.
    + right. exists (rev t). left. apply (f_equal (@rev N)) in H. now rewrite rev_involutive in H.
    + right. exists (rev t). right. apply (f_equal (@rev N)) in H. now rewrite rev_involutive in H.
  - intros [->|(q & [->| ->])]; [now left|right..]; rewrite rev_app_distr; eexists; [left|right]; reflexivity.
Qed.
Lemma mvt_rev p : rev (p ++ lit ".mvt") = lit "tvm." ++ rev p.
Proof. now rewrite rev_app_distr. Qed.
Lemma mvt_start u : starts_with (lit "tvm.") (rev u) = true <-> exists p, u = p ++ lit ".mvt".
Proof. change (lit "tvm.") with (rev (lit ".mvt")). apply ends_with_spec. Qed.

Lemma rev_shape p z x y : rev (p ++ z ++ lit "/" ++ x ++ lit "/" ++ y) = rev y ++ 47 :: rev x ++ 47 :: rev z ++ rev p.
Proof. change (lit "/") with [47]. rewrite !rev_app_distr, <- !app_assoc. cbn [rev app]. reflexivity. Qed.

Definition tile_path (u p z x y : bytes) : Prop :=
  u = p ++ z ++ lit "/" ++ x ++ lit "/" ++ y ++ lit ".mvt" /\
  (p = [] \/ exists q, p = q ++ [47] \/ p = q ++ [0]) /\ digit_string z /\ digit_string x /\ digit_string y.

Lemma parse_cases u :
  (exists p z x y, tile_path u p z x y /\
     parse_tile_url u = Ok (Some (Tile (value_of x mod 2 ^ 32) (value_of y mod 2 ^ 32) (value_of z mod 2 ^ 32)))) \/
  ((exists p, u = p ++ lit ".mvt") /\ (forall p z x y, ~ tile_path u p z x y) /\ parse_tile_url u = Throw) \/
  ((forall p, u <> p ++ lit ".mvt") /\ parse_tile_url u = Ok None).
Proof.
  unfold parse_tile_url. destruct (starts_with (lit "tvm.") (rev u)) eqn:M; cbn [negb].
  2:{ right. right. split; [|reflexivity]. intros p H. assert (starts_with (lit "tvm.") (rev u) = true) by (apply mvt_start; now exists p). congruence. }
  apply mvt_start in M as [p0 ->]. rewrite mvt_rev. rewrite (skipn_app_exact' 4 (lit "tvm.")) by reflexivity.
  assert (T : forall p z x y, tile_path (p0 ++ lit ".mvt") p z x y ->
     rev p0 = rev y ++ 47 :: rev x ++ 47 :: rev z ++ rev p /\ plain (rev y) /\ plain (rev x) /\ plain (rev z) /\ stop (rev p)).
  { intros p z x y (E & St & Dz & Dx & Dy).
    replace (p ++ z ++ lit "/" ++ x ++ lit "/" ++ y ++ lit ".mvt") with ((p ++ z ++ lit "/" ++ x ++ lit "/" ++ y) ++ lit ".mvt") in E
      by (now rewrite <- !app_assoc).
    apply app_inv_tail in E. subst p0. rewrite rev_shape. split; [reflexivity|].
    repeat split; try (now apply digit_plain, digit_rev). now apply stop_rev. }
  pose proof (split3 (rev p0)) as S3.
  destruct (split_slash (c_string (rev p0))) as [|a [|b [|c l]]] eqn:E.
  1-3: right; left; split; [now exists p0|]; split; [|reflexivity]; intros p z x y H;
    destruct (T p z x y H) as (A & B & C & D & F); exact (S3 _ _ _ _ A B C D F).
  destruct S3 as (t & Et & Pa & Pb & Pc & St).
  destruct (forallb isdigit a) eqn:Da; cbn [verify bind];
  [destruct (forallb isdigit b) eqn:Db; cbn [verify bind];
   [destruct (forallb isdigit c) eqn:Dc; cbn [verify bind]|]|].
  1:{ left. exists (rev t), (rev c), (rev b), (rev a). split.
      - split.
        + apply (f_equal (@rev N)) in Et. rewrite rev_involutive in Et. rewrite Et.
          change (lit "/") with [47]. rewrite rev_app_distr. cbn [rev]. rewrite rev_app_distr. cbn [rev].
          rewrite rev_app_distr, <- !app_assoc. cbn [app]. reflexivity.
        + split; [apply stop_rev; now rewrite rev_involutive|]. split; [|split]; apply digit_rev; now apply isdigit_spec.
      - now rewrite !parse_u32_spec. }
  all: right; left; split; [now exists p0|]; split; [|reflexivity]; intros p z x y H;
    destruct (T p z x y H) as (A & B & C & D & F); destruct H as (_ & _ & Dz & Dx & Dy);
    rewrite A in E; rewrite (split_span (rev y)) in E by (auto; right; eexists; now left);
    rewrite (split_span (rev x)) in E by (auto; right; eexists; now left); rewrite (split_span (rev z)) in E by auto;
    injection E as <- <- <- _;
    apply digit_rev, isdigit_spec in Dz; apply digit_rev, isdigit_spec in Dx; apply digit_rev, isdigit_spec in Dy; congruence.
Qed.
Lemma mvt_of_path u p z x y : tile_path u p z x y -> exists q, u = q ++ lit ".mvt".
Proof. intros (-> & _). exists (p ++ z ++ lit "/" ++ x ++ lit "/" ++ y). now rewrite <- !app_assoc. Qed.
Lemma path_tokens u p z x y : tile_path u p z x y ->
  exists l, split_slash (c_string (skipn 4 (rev u))) = rev y :: rev x :: rev z :: l.
Proof.
  intros (-> & St & Dz & Dx & Dy).
  replace (p ++ z ++ lit "/" ++ x ++ lit "/" ++ y ++ lit ".mvt") with ((p ++ z ++ lit "/" ++ x ++ lit "/" ++ y) ++ lit ".mvt")
    by (now rewrite <- !app_assoc).
  rewrite mvt_rev, (skipn_app_exact' 4 (lit "tvm.")) by reflexivity. rewrite rev_shape.
  rewrite (split_span (rev y)) by (try (now apply digit_plain, digit_rev); right; eexists; now left).
  rewrite (split_span (rev x)) by (try (now apply digit_plain, digit_rev); right; eexists; now left).
  rewrite (split_span (rev z)) by (try (now apply digit_plain, digit_rev); now apply stop_rev). eauto.
Qed.
Lemma path_unique u p z x y p' z' x' y' : tile_path u p z x y -> tile_path u p' z' x' y' -> z = z' /\ x = x' /\ y = y'.
Proof.
  intros A B. destruct (path_tokens _ _ _ _ _ A) as [l EA], (path_tokens _ _ _ _ _ B) as [l' EB].
  rewrite EA in EB. injection EB as Ey Ex Ez _. apply (f_equal (@rev N)) in Ex, Ey, Ez. rewrite !rev_involutive in *. auto.
Qed.
Lemma parse_of_path u p z x y : tile_path u p z x y ->
  parse_tile_url u = Ok (Some (Tile (value_of x mod 2 ^ 32) (value_of y mod 2 ^ 32) (value_of z mod 2 ^ 32))).
Proof.
  intros H. destruct (parse_cases u) as [(p' & z' & x' & y' & H' & E)|[(_ & N' & _)|(N' & _)]].
  - destruct (path_unique _ _ _ _ _ _ _ _ _ H H') as (-> & -> & ->). exact E.
  - exfalso. now apply (N' _ _ _ _ H).
  - exfalso. destruct (mvt_of_path _ _ _ _ _ H) as [q E]. now apply (N' q).
Qed.
Lemma decimal_spec s v : decimal s v -> digit_string s /\ value_of s = v.
Proof.
  induction 1 as [c H|s c v _ [D V] H].
  - split; [now constructor|]. unfold value_of. cbn [fold_left]. lia.
  - split; [apply Forall_app; split; [exact D|now constructor]|].
    unfold value_of in *. rewrite fold_left_app, V. reflexivity.
Qed.

(** ** url_decode *)
Lemma hex_digit_spec c v : hex_digit c = Some v <-> hex_value c v.
Proof.
  unfold hex_digit. split.
  - destruct ((48 <=? c) && (c <=? 57)) eqn:A; [intros [= <-]; constructor; lia|].
    destruct ((65 <=? c) && (c <=? 70)) eqn:B; [intros [= <-]; replace (c - 55) with (c - 65 + 10) by lia; constructor; lia|].
    destruct ((97 <=? c) && (c <=? 102)) eqn:C; [intros [= <-]; replace (c - 87) with (c - 97 + 10) by lia; constructor; lia|discriminate].
  - intros [c' H|c' H|c' H].
    + replace ((48 <=? c') && (c' <=? 57)) with true by lia. reflexivity.
    + replace ((48 <=? c') && (c' <=? 57)) with false by lia. replace ((65 <=? c') && (c' <=? 70)) with true by lia. f_equal. lia.
    + replace ((48 <=? c') && (c' <=? 57)) with false by lia. replace ((65 <=? c') && (c' <=? 70)) with false by lia.
      replace ((97 <=? c') && (c' <=? 102)) with true by lia. f_equal. lia.
Qed.
Lemma read_hex2_hex a b va vb : hex_value a va -> hex_value b vb -> read_hex2 a b = Some (16 * va + vb).
Proof.
  intros Ha Hb. assert (isspace a = false /\ (a =? 43) = false /\ (a =? 45) = false) as (E1 & E2 & E3).
  { unfold isspace. destruct Ha; lia. }
  unfold read_hex2. rewrite E1, E2, E3. apply hex_digit_spec in Ha, Hb. now rewrite Ha, Hb.
Qed.
Lemma decode_spec e s : encodes e s -> url_decode e = Ok s.
Proof.
  induction 1 as [|c e s N1 N2 _ IH|e s _ IH|a b va vb e s Ha Hb _ IH]; [reflexivity| | |].
  - cbn [url_decode]. apply N.eqb_neq in N1, N2. rewrite N1, N2, IH. reflexivity.
  - cbn [url_decode]. change (43 =? 37) with false. change (43 =? 43) with true. cbv iota. now rewrite IH.
  - cbn [url_decode]. change (37 =? 37) with true. cbv iota. rewrite (read_hex2_hex _ _ _ _ Ha Hb), IH. reflexivity.
Qed.
Lemma decode_total e : (exists s, url_decode e = Ok s) \/ url_decode e = Throw.
Proof.
  remember (length e) as n eqn:L. assert (length e <= n)%nat as H by lia. clear L. revert e H.
  induction n as [|n IH]; intros [|c e] L; cbn [length] in L; try lia; [left; now exists []|left; now exists []|].
  cbn [url_decode]. destruct (c =? 37).
  - destruct e as [|a [|b r]]; [now right|now right|]. destruct (read_hex2 a b) as [v|]; [|now right].
    cbn [length] in L. destruct (IH r) as [[s ->]| ->]; [lia|left; now eexists|now right].
  - destruct (IH e) as [[s ->]| ->]; [lia| |destruct (c =? 43); now right].
    left. destruct (c =? 43); now eexists.
Qed.
Lemma encodes_prefix_throw e s r : encodes e s -> url_decode r = Throw -> url_decode (e ++ r) = Throw.
Proof.
  intros H R. induction H as [|c e s N1 N2 _ IH|e s _ IH|a b va vb e s Ha Hb _ IH]; [exact R| | |]; cbn [app url_decode].
  - apply N.eqb_neq in N1, N2. now rewrite N1, N2, IH.
  - change (43 =? 37) with false. change (43 =? 43) with true. cbv iota. now rewrite IH.
  - change (37 =? 37) with true. cbv iota. now rewrite (read_hex2_hex _ _ _ _ Ha Hb), IH.
Qed.
(** a pair that is not two hexadecimal digits and does not start with a digit, sign or space *)
Lemma read_hex2_bad a b : (forall v, ~ hex_value a v) -> isspace a = false -> a <> 43 -> a <> 45 -> read_hex2 a b = None.
Proof.
  intros H S1 N1 N2. unfold read_hex2. rewrite S1. apply N.eqb_neq in N1, N2. rewrite N1, N2.
  destruct (hex_digit a) as [v|] eqn:E; [|reflexivity]. apply hex_digit_spec in E. now apply H in E.
Qed.

(** exactly the escapes the server accepts *)
Lemma hex_small c v : hex_value c v -> v < 16.
Proof. intros []; lia. Qed.
Lemma read_hex2_spec a b v : read_hex2 a b = Some v <-> escape a b v.
Proof.
  unfold read_hex2. split.
  - destruct (isspace a) eqn:S1.
    { intros H. apply hex_digit_spec in H. apply esc_blank; [unfold isspace in S1; lia|exact H]. }
    destruct (N.eqb_spec a 43) as [->|N1]; [intros H; apply hex_digit_spec in H; now apply esc_plus|].
    destruct (N.eqb_spec a 45) as [->|N2].
    { destruct (hex_digit b) as [vb|] eqn:E; [|discriminate]. cbn [option_map]. intros Hv. assert (Ev : v = (256 - vb) mod 256) by congruence. clear Hv. subst v. apply hex_digit_spec in E. pose proof (hex_small _ _ E).
      apply (esc_minus b vb); [exact E|apply N.mod_lt; lia|]. rewrite (N.add_mod_idemp_l (256 - vb) vb 256) by lia.
      assert (E2 : 256 - vb + vb = 256) by lia. rewrite E2. reflexivity. }
    destruct (hex_digit a) as [va|] eqn:Ea; [|discriminate]. apply hex_digit_spec in Ea.
    destruct (hex_digit b) as [vb|] eqn:Eb; [apply hex_digit_spec in Eb; intros [= <-]; now apply esc_two|].
    destruct ((a =? 48) && ((b =? 120) || (b =? 88))) eqn:X; [discriminate|]. intros [= <-]. apply esc_one; [exact Ea| |lia].
    intros v' Hv. apply hex_digit_spec in Hv. congruence.
  - assert (NS : forall c w, hex_value c w -> isspace c = false /\ (c =? 43) = false /\ (c =? 45) = false) by (intros c w Hc; unfold isspace; destruct Hc; lia).
    intros [a' b' va vb Ha Hb|a' b' va Ha Hb Hx|a' b' vb Ha Hb|b' vb Hb|b' vb v' Hb Hv Hm].
    + destruct (NS _ _ Ha) as (E1 & E2 & E3). rewrite E1, E2, E3. apply hex_digit_spec in Ha, Hb. now rewrite Ha, Hb.
    + destruct (NS _ _ Ha) as (E1 & E2 & E3). rewrite E1, E2, E3. apply hex_digit_spec in Ha. rewrite Ha.
      destruct (hex_digit b') as [vb|] eqn:E; [apply hex_digit_spec in E; now apply Hb in E|].
      replace ((a' =? 48) && ((b' =? 120) || (b' =? 88))) with false by lia. reflexivity.
    + replace (isspace a') with true by (unfold isspace; lia). now apply hex_digit_spec.
    + change (isspace 43) with false. change (43 =? 43) with true. cbv iota. now apply hex_digit_spec.
    + change (isspace 45) with false. change (45 =? 43) with false. change (45 =? 45) with true. cbv iota.
      pose proof (hex_small _ _ Hb). apply hex_digit_spec in Hb. rewrite Hb. cbn [option_map]. f_equal.
      destruct (N.eq_dec vb 0) as [->|]; [rewrite N.add_0_r, N.mod_small in Hm by exact Hv; subst v'; reflexivity|].
      rewrite N.mod_small by lia. assert (v' + vb = 256); [|lia].
      pose proof (N.div_mod (v' + vb) 256 ltac:(lia)) as D. rewrite Hm in D. nia.
Qed.
Lemma decode_exact : forall e s, url_decode e = Ok s <-> decodes e s.
Proof.
  intros e s. split.
  - remember (length e) as n eqn:L. assert (length e <= n)%nat as H by lia. clear L. revert e s H.
    induction n as [|n IH]; intros [|c e] s L; cbn [length] in L; try lia; try (cbn [url_decode]; intros [= <-]; constructor).
    cbn [url_decode]. destruct (N.eqb_spec c 37) as [->|N1].
    + destruct e as [|a [|b r]]; [discriminate|discriminate|]. destruct (read_hex2 a b) as [v|] eqn:R; [|discriminate].
      intros D. apply bind_ok in D as (o & D1 & D2). apply Ok_inj in D2. subst s. cbn [length] in L. apply dcd_pct; [now apply read_hex2_spec|apply IH; [lia|exact D1]].
    + destruct (N.eqb_spec c 43) as [->|N2]; intros D; apply bind_ok in D as (o & D1 & D2); apply Ok_inj in D2; subst s.
      * apply dcd_plus. apply IH; [lia|exact D1].
      * apply dcd_lit; [exact N1|exact N2|apply IH; [lia|exact D1]].
  - induction 1 as [|c e s N1 N2 _ IH|e s _ IH|a b v e s Hv _ IH]; [reflexivity| | |]; cbn [url_decode].
    + apply N.eqb_neq in N1, N2. rewrite N1, N2, IH. reflexivity.
    + change (43 =? 37) with false. change (43 =? 43) with true. cbv iota. now rewrite IH.
    + change (37 =? 37) with true. cbv iota. apply read_hex2_spec in Hv. now rewrite Hv, IH.
Qed.

(** ** serving *)
Lemma match_dots_spec s f : match_dots s = Some f <-> s = f /\ f <> [] /\ one_line f.
Proof.
  unfold match_dots, one_line. destruct s as [|c s]; [split; [discriminate|intros (<- & H & _); congruence]|].
  destruct (forallb (fun c0 => negb ((c0 =? 10) || (c0 =? 13))) (c :: s)) eqn:E.
  - rewrite forallb_forall in E. split.
    + intros [= <-]. split; [reflexivity|]. split; [discriminate|]. split; intros I; apply E in I; discriminate.
    + intros (-> & _). reflexivity.
  - split; [discriminate|]. intros (<- & _ & N10 & N13).
    assert (forallb (fun c0 => negb ((c0 =? 10) || (c0 =? 13))) (c :: s) = true); [|congruence].
    apply forallb_forall. intros x I. destruct (N.eq_dec x 10) as [->|X]; [contradiction|]. destruct (N.eq_dec x 13) as [->|Y]; [contradiction|]. lia.
Qed.
Lemma match_prefix_spec p s f : match_prefix p s = Some f <-> s = p ++ f /\ f <> [] /\ one_line f.
Proof.
  unfold match_prefix. destruct (starts_with p s) eqn:E.
  - apply starts_with_spec in E as [r ->]. rewrite skipn_app_exact, match_dots_spec. split; intros (A & B); split; auto.
    + now rewrite A. + now apply app_inv_head in A.
  - split; [discriminate|]. intros (-> & _). assert (starts_with p (p ++ f) = true) by (apply starts_with_spec; now exists f). congruence.
Qed.
Lemma content_type_spec f : type_of f (content_type f).
Proof.
  unfold content_type.
  destruct (ends_with (lit ".html") f) eqn:A; [apply ends_with_spec in A as [p ->]; now apply type_html with p|].
  destruct (ends_with (lit ".css") f) eqn:B; [apply ends_with_spec in B as [p ->]; now apply type_css with p|].
  destruct (ends_with (lit ".js") f) eqn:C; [apply ends_with_spec in C as [p ->]; now apply type_js with p|].
  assert (G : forall x, ends_with x f = false -> forall p, f <> p ++ x).
  { intros x E p ->. assert (ends_with x (p ++ x) = true) by (apply ends_with_spec; now exists p). congruence. }
  apply type_none; now apply G.
Qed.
Lemma last_ext (a b x y : bytes) : a ++ x = b ++ y -> length x = length y -> x = y.
Proof.
  intros E L. apply (f_equal (@rev N)) in E. rewrite !rev_app_distr in E.
  assert (rev x = rev y); [|now rewrite <- (rev_involutive x), H, rev_involutive].
  apply (f_equal (firstn (length (rev x)))) in E. rewrite firstn_app_exact in E. rewrite E.
  rewrite firstn_app_exact'; [reflexivity|]. now rewrite !rev_length.
Qed.
(** the last [n] bytes are determined *)
Lemma type_fun f a b : type_of f a -> type_of f b -> a = b.
Proof.
  assert (G4 : forall p q, p ++ lit ".html" = q ++ lit ".css" -> False).
  { intros p q E. change (lit ".html") with ([46] ++ lit "html") in E. rewrite app_assoc in E. apply last_ext in E; [discriminate|reflexivity]. }
  assert (G2 : forall p q, p ++ lit ".html" = q ++ lit ".js" -> False).
  { intros p q E. change (lit ".html") with (lit ".h" ++ lit "tml") in E. rewrite app_assoc in E. apply last_ext in E; [discriminate|reflexivity]. }
  assert (G3 : forall p q, p ++ lit ".css" = q ++ lit ".js" -> False).
  { intros p q E. change (lit ".css") with (lit "." ++ lit "css") in E. rewrite app_assoc in E. apply last_ext in E; [discriminate|reflexivity]. }
  intros [p E|p E|p E|A B C] [p' E'|p' E'|p' E'|A' B' C']; try reflexivity; exfalso;
    try (rewrite E in E'; (now apply G4 in E') || (now apply G2 in E') || (now apply G3 in E') || (symmetry in E'; (now apply G4 in E') || (now apply G2 in E') || (now apply G3 in E')));
    try (now apply A in E'); try (now apply B in E'); try (now apply C in E'); try (now apply A' in E); try (now apply B' in E); try (now apply C' in E).
Qed.

Lemma serve_spec e q u : (rq_method q = Get \/ rq_method q = Head) -> url_decode (rq_target q) = Ok u ->
  (forall t, e_tile e t <> UB /\ e_tile e t <> Fuel) ->
  exists a r, asks_for (rq_target q) u a /\ answer e q a r /\ respond e q = Ok r.
Proof.
  intros M D NU.
  assert (RS : respond e q = match (do a <- maybe_serve_tile e q;
      match a with Some r => Ok r | None => do b <- maybe_serve_glyphs e q;
        match b with Some r => Ok r | None => do c <- maybe_serve_file e q;
          match c with Some r => Ok r | None => Ok (empty_response 404) end end end) with
      | Throw => Ok (empty_response 500) | r => r end).
  { unfold respond, serve. destruct M as [-> | ->]; reflexivity. }
  rewrite RS. clear RS. unfold maybe_serve_tile, maybe_serve_glyphs, maybe_serve_file. rewrite !D. cbn [bind].
  destruct (parse_cases u) as [(p & z & x & y & H & E)|[((p & U) & N' & E)|(N' & E)]]; rewrite E; cbn [bind].
  - set (t := Tile _ _ _) in *.
    assert (A : asks_for (rq_target q) u (AskTile t)) by (destruct H as (-> & St & Dz & Dx & Dy); now apply asks_tile with p).
    destruct (contains_str (lit "deflate") (rq_accept q)) eqn:C; cbn [negb].
    + apply contains_spec in C as (a & b & C). destruct (NU t) as [NU1 NU2].
      destruct (e_tile e t) as [[c|]| | |] eqn:Et; try congruence; cbn [bind].
      * exists (AskTile t), (Response 200 c true None). split; [exact A|]. split; [eapply ans_tile; eauto|reflexivity].
      * exists (AskTile t), (empty_response 204). split; [exact A|]. split; [eapply ans_no_tile; eauto|reflexivity].
      * exists (AskTile t), (empty_response 500). split; [exact A|]. split; [eapply ans_tile_error; eauto|reflexivity].
    + exists (AskTile t), (empty_response 501). split; [exact A|]. split; [|reflexivity]. apply ans_undeflated.
      intros a b X. assert (contains_str (lit "deflate") (rq_accept q) = true) by (apply contains_spec; now exists a, b). congruence.
  - exists AskBadTile, (empty_response 500). split; [|split; [apply ans_bad|reflexivity]].
    apply asks_bad with p; [exact U|]. intros p' z x y Ep St (Dz & Dx & Dy). apply (N' p' z x y). split; [|auto].
    rewrite U, Ep, <- !app_assoc. reflexivity.
  - destruct (match_prefix (lit "/glyphs/") u) as [f|] eqn:G.
    + apply match_prefix_spec in G. assert (A : asks_for (rq_target q) u (AskGlyphs f)) by (now apply asks_glyphs).
      destruct (e_fonts e f) as [c|] eqn:F; cbn [bind].
      * exists (AskGlyphs f), (Response 200 c false None). split; [exact A|]. split; [now apply ans_font|reflexivity].
      * exists (AskGlyphs f), (empty_response 404). split; [exact A|]. split; [now apply ans_no_font|reflexivity].
    + assert (NG : forall g, ~ glyphs_url u g) by (intros g X; apply match_prefix_spec in X; congruence).
      assert (FS : forall f, asks_for (rq_target q) u (AskFile f) ->
        exists a r, asks_for (rq_target q) u a /\ answer e q a r /\
          match (do found <- match e_dir e with [] => Ok None | _ => match e_fs e (path_append (e_dir e) f) with FNone => Ok None | FDir => Throw | FFile b => Ok (Some b) end end;
                 match match found with Some b => Some b | None => e_res e f end with
                 | Some b => Ok (Some (Response 200 b false (content_type f))) | None => Ok (Some (empty_response 404)) end) with
          | Ok (Some r) => Ok r | Ok None => Ok (empty_response 404) | Throw => Ok (empty_response 500) | UB => UB | Fuel => Fuel end = Ok r).
      { intros f A.
        assert (R : e_dir e = [] \/ e_fs e (path_append (e_dir e) f) = FNone ->
          exists a r, asks_for (rq_target q) u a /\ answer e q a r /\
            match match e_res e f with Some b => Ok (Some (Response 200 b false (content_type f))) | None => Ok (Some (empty_response 404)) end with
             | Ok (Some r) => Ok r | Ok None => Ok (empty_response 404) | Throw => Ok (empty_response 500) | UB => UB | Fuel => Fuel end = Ok r).
        { intros Hd. destruct (e_res e f) as [b|] eqn:F.
          - exists (AskFile f), (Response 200 b false (content_type f)). split; [exact A|]. split; [|reflexivity].
            apply ans_res; auto. apply content_type_spec.
          - exists (AskFile f), (empty_response 404). split; [exact A|]. split; [now apply ans_no_file|reflexivity]. }
        destruct (e_dir e) as [|d0 ds] eqn:Dir; cbn [bind]; [apply R; now left|].
        rewrite <- Dir in *. assert (DN : e_dir e <> []) by (rewrite Dir; discriminate).
        destruct (e_fs e (path_append (e_dir e) f)) as [| |b] eqn:F; cbn [bind]; [apply R; now right| |].
        - exists (AskFile f), (empty_response 500). split; [exact A|]. split; [now apply ans_dir|reflexivity].
        - exists (AskFile f), (Response 200 b false (content_type f)). split; [exact A|]. split; [|reflexivity].
          apply ans_file; auto. apply content_type_spec. }
      destruct (match_prefix (lit "/") u) as [f|] eqn:G2.
      * apply match_prefix_spec in G2. destruct (FS f) as (a & r & A1 & A2 & A3); [now apply asks_file|].
        exists a, r. split; [exact A1|]. split; [exact A2|]. rewrite <- A3. cbn [bind].
        destruct (bytes_eqb (rq_target q) (lit "/")); destruct (bind _ _) as [[?|]| | |]; reflexivity.
      * assert (NF : forall g, ~ file_url u g) by (intros g X; apply match_prefix_spec in X; congruence).
        destruct (bytes_eqb (rq_target q) (lit "/")) eqn:Sl.
        -- apply bytes_eqb_eq in Sl. destruct (FS (lit "index.html")) as (a & r & A1 & A2 & A3); [now apply asks_index|].
           exists a, r. split; [exact A1|]. split; [exact A2|]. rewrite <- A3. cbn [bind].
           destruct (bind _ _) as [[?|]| | |]; reflexivity.
        -- exists AskNothing, (empty_response 404). split; [|split; [apply ans_nothing|reflexivity]].
           apply asks_nothing; auto. intros X. apply bytes_eqb_eq in X. congruence.
Qed.

(** what is asked for, and the answer, are determined by the request *)
Lemma asks_fun target u a b : asks_for target u a -> asks_for target u b -> a = b.
Proof.
  assert (GL : forall f g, glyphs_url u f -> glyphs_url u g -> f = g).
  { intros f g (E1 & _) (E2 & _). rewrite E1 in E2. now apply app_inv_head in E2. }
  assert (FL : forall f g, file_url u f -> file_url u g -> f = g).
  { intros f g (E1 & _) (E2 & _). rewrite E1 in E2. now apply app_inv_head in E2. }
  assert (TP : forall p z x y, u = p ++ z ++ lit "/" ++ x ++ lit "/" ++ y ++ lit ".mvt" -> exists q, u = q ++ lit ".mvt").
  { intros p z x y ->. exists (p ++ z ++ lit "/" ++ x ++ lit "/" ++ y). now rewrite <- !app_assoc. }
  intros [p z x y E St Dz Dx Dy|p E NT|f NM G|f NM NG F|NM NG NF T|NM NG NF T]
         [p' z' x' y' E' St' Dz' Dx' Dy'|p' E' NT'|f' NM' G'|f' NM' NG' F'|NM' NG' NF' T'|NM' NG' NF' T'];
    try reflexivity;
    try (exfalso; destruct (TP _ _ _ _ E) as [qq EE]; now apply (NM' qq));
    try (exfalso; destruct (TP _ _ _ _ E') as [qq EE]; now apply (NM qq));
    try (exfalso; now apply (NM' _ E)); try (exfalso; now apply (NM _ E'));
    try (exfalso; now apply (NG' _ G)); try (exfalso; now apply (NG _ G'));
    try (exfalso; now apply (NF' _ F)); try (exfalso; now apply (NF _ F')); try congruence.
  - assert (A : tile_path u p z x y) by (repeat split; auto). assert (B : tile_path u p' z' x' y') by (repeat split; auto).
    destruct (path_unique _ _ _ _ _ _ _ _ _ A B) as (-> & -> & ->). reflexivity.
  - exfalso. rewrite E' in E. replace (p ++ z ++ lit "/" ++ x ++ lit "/" ++ y ++ lit ".mvt") with ((p ++ z ++ lit "/" ++ x ++ lit "/" ++ y) ++ lit ".mvt") in E
      by (now rewrite <- !app_assoc). apply app_inv_tail in E. now apply (NT' p z x y).
  - exfalso. rewrite E in E'. replace (p' ++ z' ++ lit "/" ++ x' ++ lit "/" ++ y' ++ lit ".mvt") with ((p' ++ z' ++ lit "/" ++ x' ++ lit "/" ++ y') ++ lit ".mvt") in E'
      by (now rewrite <- !app_assoc). apply app_inv_tail in E'. now apply (NT p' z' x' y').
  - f_equal. now apply GL.
  - f_equal. now apply FL.
Qed.
Lemma answer_fun e q a r r' : answer e q a r -> answer e q a r' -> r = r'.
Proof.
  intros A B. destruct A; inversion B; subst; try reflexivity; try congruence;
    try (exfalso; match goal with H : forall a b, rq_accept q <> _, H' : rq_accept q = _ |- _ => now apply (H _ _ H') end);
    try (exfalso; match goal with H : _ \/ _ |- _ => destruct H; congruence end);
    try (match goal with H : type_of _ ?a, H' : type_of _ ?b |- _ => rewrite (type_fun _ _ _ H H') in * end; congruence).
Qed.

(** ** the resource directory *)
Lemma path_append_below dir f : dir <> [] -> no_dotdot f -> (forall r, f <> 47 :: r) -> below dir (path_append dir f).
Proof.
  intros Nd ND NA. exists f. split; [exact ND|]. split; [exact NA|]. unfold path_append.
  assert (G : forall X Y : bytes, match f with 47 :: _ => X | _ => Y end = Y).
  { intros X Y. destruct f as [|c f]; [reflexivity|]. destruct (N.eq_dec c 47) as [->|H]; [now exfalso; apply (NA f)|].
    destruct c as [|c]; [reflexivity|]. do 6 (destruct c as [c|c|]; try reflexivity). exfalso. now apply H. }
  rewrite G. destruct (rev dir) as [|c r] eqn:R.
  - exfalso. apply Nd. now rewrite <- (rev_involutive dir), R.
  - destruct (N.eq_dec c 47) as [->|H]; [now left|].
    right. destruct c as [|c]; [reflexivity|]. do 6 (destruct c as [c|c|]; try reflexivity). exfalso. now apply H.
Qed.
Lemma index_below dir : dir <> [] -> below dir (path_append dir (lit "index.html")).
Proof.
  intros H. apply path_append_below; [exact H| |discriminate]. intros a b. left. intros E.
  assert (contains_str (lit "..") (lit "index.html") = true) by (apply contains_spec; now exists a, b). discriminate.
Qed.
Lemma respond_below e fs' q u :
  (forall p, below (e_dir e) p -> fs' p = e_fs e p) -> url_decode (rq_target q) = Ok u ->
  (forall f, u = 47 :: f -> no_dotdot f /\ forall r, f <> 47 :: r) ->
  respond (Env (e_tile e) (e_fonts e) (e_res e) (e_dir e) fs') q = respond e q.
Proof.
  intros Hfs D ND. unfold respond, serve.
  assert (F : maybe_serve_file (Env (e_tile e) (e_fonts e) (e_res e) (e_dir e) fs') q = maybe_serve_file e q).
  { unfold maybe_serve_file. rewrite D. cbn [bind e_dir e_fs e_res].
    destruct (match_prefix (lit "/") u) as [f|] eqn:M.
    - apply match_prefix_spec in M as (U & _). destruct (ND f U) as [A B].
      destruct (e_dir e) as [|d ds] eqn:Dir; [reflexivity|]. rewrite Hfs; [reflexivity|].
      apply path_append_below; auto. discriminate.
    - destruct (bytes_eqb (rq_target q) (lit "/")); [|reflexivity].
      destruct (e_dir e) as [|d ds] eqn:Dir; [reflexivity|]. rewrite Hfs; [reflexivity|]. apply index_below. discriminate. }
  rewrite F. reflexivity.
Qed.
