(** Proofs for importing OSM objects. *)
From Coq Require Import Permutation Sorting.Sorted.
From Verif Require Import Base BaseProof ModelTile ModelCodec ModelGeom ModelFeature ModelDict ModelOsm
  SpecDict SpecMvt SpecOsm ProofCodec ProofDict.
Open Scope N_scope.

(** ** values *)
Lemma to_u64_lt z : to_u64 z < 2 ^ 64.
Proof. unfold to_u64. pose proof (Z.mod_pos_bound z (2 ^ 64) ltac:(lia)). lia. Qed.
Lemma to_i64_u64 z : int64_ok z = true -> to_i64 (to_u64 z) = z.
Proof.
  intros H. unfold int64_ok, min64, max64 in H. unfold to_i64. rewrite N.mod_small by apply to_u64_lt. unfold to_u64.
  rewrite Z2N.id by (apply Z.mod_pos_bound; lia).
  destruct (Z.leb_spec 0 z) as [Hz|Hz].
  - rewrite Z.mod_small by lia. replace (z <? 2 ^ 63)%Z with true by lia. reflexivity.
  - replace (z mod 2 ^ 64)%Z with (z + 2 ^ 64)%Z.
    + replace (z + 2 ^ 64 <? 2 ^ 63)%Z with false by lia. lia.
    + symmetry. rewrite <- (Z.mod_add z 1) by lia. rewrite Z.mul_1_l. apply Z.mod_small. lia.
Qed.
Lemma value_integer z : int64_ok z = true -> meta_value (encode_integer z) = Some (MInt z).
Proof.
  intros H. unfold meta_value, encode_integer. rewrite le_bytes_length. cbn [Nat.eqb].
  rewrite le_val_bytes by (cbn; apply to_u64_lt). now rewrite to_i64_u64.
Qed.

(** ** from_chars *)
Lemma digits_app a c v : is_digit c = true -> forall acc, (forall d, In d a -> is_digit d = true) ->
  digits_value acc a = v -> digits_value acc (a ++ [c]) = (v * 10 + (Z.of_N c - 48))%Z.
Proof.
  intros Hc. induction a as [|d a IH]; intros acc Ha H; cbn [app digits_value] in *.
  - rewrite Hc. now subst.
  - rewrite (Ha d) in * by now left. apply IH; auto. intros; apply Ha; now right.
Qed.
Lemma numeral_digits s v : numeral s v -> (forall d, In d s -> is_digit d = true) /\ s <> [] /\ digits_value 0 s = v.
Proof.
  induction 1 as [c Hc|s c v H (I1 & I2 & I3) Hc].
  - assert (is_digit c = true) by (unfold is_digit; lia). split; [|split].
    + intros d [<-|[]]. assumption.
    + discriminate.
    + cbn [digits_value]. rewrite H. lia.
  - assert (D : is_digit c = true) by (unfold is_digit; lia). split; [|split].
    + intros d Hd. apply in_app_iff in Hd as [Hd|[<-|[]]]; auto.
    + destruct s; discriminate.
    + now apply digits_app.
Qed.
Lemma from_chars_text s v : integer_text s v -> int64_ok v = true -> from_chars64 s = Some v.
Proof.
  intros H Ho. destruct H as [s v H|s v H]; apply numeral_digits in H as (H1 & H2 & H3); destruct s as [|c s]; try easy.
  - unfold from_chars64. assert (Hc : is_digit c = true) by (apply H1; now left).
    assert (Hne : c <> 45) by (unfold is_digit in Hc; lia).
    replace (match c with 45 => _ | _ => _ end) with (false, c :: s).
    2:{ destruct (N.eq_dec c 45) as [->|_]; [easy|]. destruct c as [|c]; [reflexivity|].
        do 6 (destruct c as [c|c|]; try reflexivity). easy. }
    cbv zeta. rewrite Hc, H3, Ho. reflexivity.
  - unfold from_chars64. rewrite (H1 c) by now left. rewrite H3, Ho. reflexivity.
Qed.

(** ** finish_metadata *)
Lemma unique_keys_cons (m : meta) (l : list meta) : exists a b, l = a ++ b /\ Forall (fun x => fst x = fst m) a /\ unique_keys (m :: l) = m :: unique_keys b /\
    match b with [] => True | x :: _ => fst x <> fst m end.
Proof.
  cbn [unique_keys]. induction l as [|x l IH].
  - exists [], []. repeat split; constructor.
  - destruct (bytes_eqb (fst m) (fst x)) eqn:E.
    + destruct IH as (a & b & -> & Fa & Hu & Hb). exists (x :: a), b. apply bytes_eqb_eq in E.
      split; [reflexivity|]. split; [constructor; auto|]. auto.
    + exists [], (x :: l). split; [reflexivity|]. split; [constructor|]. split; [reflexivity|].
      intros H. assert (bytes_eqb (fst m) (fst x) = true) by (apply bytes_eqb_eq; congruence). congruence.
Qed.
Lemma mle_key a b : mle a b -> bytes_ltb (fst b) (fst a) = false.
Proof. unfold mle, meta_ltb. intros H. apply orb_false_iff in H. tauto. Qed.
Lemma mle_val a b : mle a b -> fst a = fst b -> bytes_ltb (snd b) (snd a) = false.
Proof. unfold mle, meta_ltb. intros H E. apply orb_false_iff in H as [_ H]. rewrite E, bytes_ltb_irrefl in H. exact H. Qed.

Lemma unique_spec : forall n l, (length l <= n)%nat -> StronglySorted mle l -> one_per_key l (unique_keys l).
Proof.
  induction n as [|n IH]; intros [|m l] Hn Hs; cbn [length] in Hn; try lia.
  - split; [constructor|]. intros k v. cbn. tauto.
  - split; [constructor|]. intros k v. cbn. tauto.
  - destruct (unique_keys_cons m l) as (a & b & El & Fa & Hu & Hb). rewrite Hu. clear Hu. subst l. rewrite app_length in Hn.
    apply StronglySorted_inv in Hs as [S1 S2]. apply ss_app_r in S1 as Sb.
    destruct (IH b) as [U1 U2]; [lia|assumption|].
    assert (Gt : Forall (fun x => bytes_ltb (fst m) (fst x) = true) b).
    { assert (Hm : Forall (mle m) b) by (apply Forall_app in S2; tauto).
      destruct b as [|x b]; [constructor|].
      assert (Hx : bytes_ltb (fst m) (fst x) = true).
      { destruct (bytes_ltb (fst m) (fst x)) eqn:E; [reflexivity|]. destruct Hb. symmetry. apply bytes_ltb_total; [assumption|].
        apply mle_key. now inversion Hm. }
      constructor; [assumption|]. apply StronglySorted_inv in Sb as [_ Sb]. eapply Forall_impl; [|exact Sb].
      intros y Hy. apply mle_key in Hy. destruct (bytes_ltb (fst x) (fst y)) eqn:E; [eapply bytes_ltb_trans; eauto|].
      now rewrite <- (bytes_ltb_total _ _ E Hy). }
    split.
    + constructor; [assumption|]. apply Forall_forall. intros [k v] Hin. apply U2 in Hin as [Hin _].
      rewrite Forall_forall in Gt. now apply Gt.
    + intros k v. cbn [In]. rewrite in_app_iff. split.
      * intros [->|H].
        -- split; [now left|]. intros v' [E|H']; [injection E as ->; apply bytes_ltb_irrefl|].
           rewrite Forall_forall in S2. apply in_app_iff in H'. apply (mle_val (k, v) (k, v')); [apply S2, in_app_iff; assumption|reflexivity].
        -- apply U2 in H as [H1 H2]. split; [auto|]. rewrite Forall_forall in Gt. pose proof (Gt _ H1) as Hk. cbn [fst] in Hk.
           intros v' [->|H3]; [cbn [fst] in Hk; rewrite bytes_ltb_irrefl in Hk; discriminate|].
           apply in_app_iff in H3 as [H3|H3]; [|auto]. rewrite Forall_forall in Fa. apply Fa in H3. cbn [fst] in H3. subst k.
           rewrite bytes_ltb_irrefl in Hk. discriminate.
      * intros [H1 H2]. destruct H1 as [->|[H1|H1]].
        -- now left.
        -- left. rewrite Forall_forall in Fa. pose proof (Fa _ H1) as Ek. cbn [fst] in Ek. subst k. destruct m as [k0 v0]. cbn [fst] in *.
           f_equal. apply bytes_ltb_total; [apply H2; now left|]. rewrite Forall_forall in S2.
           apply (mle_val (k0, v0) (k0, v)); [apply S2, in_app_iff; auto|reflexivity].
        -- right. apply U2. split; [assumption|]. intros v' H3. apply H2. right. apply in_app_iff. auto.
Qed.
Lemma one_per_key_perm ms ms' r : Permutation ms ms' -> one_per_key ms r -> one_per_key ms' r.
Proof.
  intros P [H1 H2]. pose proof (Permutation_sym P) as P'. split; [assumption|]. intros k v. rewrite H2.
  split; intros [A B]; split; try (intros v' Hv; apply B); eauto using Permutation_in.
Qed.
Lemma finish_spec srt ms : sorts meta_ltb srt -> one_per_key ms (finish_metadata srt ms).
Proof.
  intros H. destruct (H ms) as [P S]. eapply one_per_key_perm; [exact P|]. unfold finish_metadata. eapply unique_spec; [reflexivity|exact S].
Qed.
Lemma min_value (l : list bytes) x : In x l -> exists v, In v l /\ forall v', In v' l -> bytes_ltb v' v = false.
Proof.
  revert x. induction l as [|a l IH]; intros x; [easy|]. intros _. destruct l as [|b l].
  - exists a. split; [now left|]. intros v' [<-|[]]. apply bytes_ltb_irrefl.
  - destruct (IH b (or_introl eq_refl)) as (v & V1 & V2). destruct (bytes_ltb a v) eqn:E.
    + exists a. split; [now left|]. intros v' [<-|H]; [apply bytes_ltb_irrefl|]. destruct (bytes_ltb v' a) eqn:E2; [|reflexivity].
      pose proof (bytes_ltb_trans _ _ _ E2 E) as H3. rewrite V2 in H3 by assumption. discriminate.
    + exists v. split; [now right|]. intros v' [<-|H]; auto.
Qed.
Lemma one_per_key_present ms r k v : one_per_key ms r -> In (k, v) ms -> exists v', In (k, v') r.
Proof.
  intros [_ H] Hin. destruct (min_value (map snd (filter (fun m => bytes_eqb (fst m) k) ms)) v) as (w & W1 & W2).
  - apply in_map_iff. exists (k, v). split; [reflexivity|]. apply filter_In. split; [assumption|]. now apply bytes_eqb_eq.
  - exists w. apply H. apply in_map_iff in W1 as ([k' w'] & E & W1). cbn [snd] in E. subst w'. apply filter_In in W1 as [W1 E].
    apply bytes_eqb_eq in E. cbn [fst] in E. subst k'. split; [assumption|]. intros v' Hv'. apply W2. apply in_map_iff. exists (k, v').
    split; [reflexivity|]. apply filter_In. split; [assumption|]. now apply bytes_eqb_eq.
Qed.

(** ** scripts *)
Section S.
  Context (stod : bytes -> option bytes) (dbl : Z -> bytes) (area : Z).
  Lemma approve_by_area_spec p : forall args,
    approve_by_area area p args = match approval area (CApproveMinByArea args) with
      Some mn => set_approved p mn | None => p end.
  Proof.
    cbn [approval]. fix IH 1. intros [|a [|b r]]; [reflexivity|reflexivity|]. cbn [approve_by_area].
    destruct ((b =? -1) || (area <? b))%Z; [reflexivity|]. apply IH.
  Qed.
  Lemma run_call_spec o p c : (match c with CApproveMinByArea args => Nat.even (length args) = true | _ => True end) ->
    run_call stod dbl area o p c = Ok (Pending
      (match approval area c with Some _ => true | None => p_approved p end)
      (match approval area c with Some mn => (mn, 21) | None => p_zoom p end)
      (match layer_of c with Some n => n | None => p_layer p end)
      (p_meta p ++ added stod dbl o c)).
  Proof.
    destruct p as [ap zm ly ms]. destruct c; intros H; cbn [run_call p_approved p_zoom p_layer p_meta layer_of added approval]; rewrite ?app_nil_r; try reflexivity;
      try (destruct (tag_value (o_tags o) k) as [v|]; [|rewrite ?app_nil_r; reflexivity]); try reflexivity.
    - rewrite H. cbn [verify bind]. rewrite approve_by_area_spec. cbn [approval].
      match goal with |- context [match ?x with Some _ => _ | None => _ end] => destruct x end; reflexivity.
    - destruct (stod v); [reflexivity|now rewrite app_nil_r].
    - destruct (from_chars64 v); [reflexivity|now rewrite app_nil_r].
  Qed.
  Lemma run_script_spec o : forall cs p, script_ok cs ->
    run_script stod dbl area o p cs = Pending
      (match last_some (approval area) cs with Some _ => true | None => p_approved p end)
      (match last_some (approval area) cs with Some mn => (mn, 21) | None => p_zoom p end)
      (match last_some layer_of cs with Some n => n | None => p_layer p end)
      (p_meta p ++ flat_map (added stod dbl o) cs).
  Proof.
    induction cs as [|c cs IH]; intros p Hs; cbn [run_script last_some flat_map].
    - rewrite app_nil_r. now destruct p.
    - rewrite run_call_spec by exact (Forall_inv Hs). rewrite IH by exact (Forall_inv_tail Hs). cbn [p_approved p_zoom p_layer p_meta].
      rewrite <- app_assoc. destruct (last_some (approval area) cs), (last_some layer_of cs); reflexivity.
  Qed.
  Lemma run_script_error o args cs2 : Nat.even (length args) = false -> forall cs1 p,
    run_script stod dbl area o p (cs1 ++ CApproveMinByArea args :: cs2) = run_script stod dbl area o p cs1.
  Proof.
    intros Ha. induction cs1 as [|c cs1 IH]; intros p; cbn [app run_script].
    - cbn [run_call]. rewrite Ha. reflexivity.
    - destruct (run_call stod dbl area o p c); [apply IH|reflexivity|reflexivity|reflexivity].
  Qed.
End S.

Lemma handle_spec srt stod dbl area o g cs names : sorts meta_ltb srt -> script_ok cs ->
  match last_some (approval (area g)) cs with
  | None => handle_feature srt stod dbl area o g cs names = Ok (None, names)
  | Some mn =>
      match last_some layer_of cs with
      | None | Some [] => handle_feature srt stod dbl area o g cs names = Throw
      | Some n =>
          (g = GNull -> handle_feature srt stod dbl area o g cs names = Ok (None, names)) /\
          (g <> GNull -> exists ms,
             handle_feature srt stod dbl area o g cs names =
               Ok (Some (Feature (to_u64 (o_id o)) (fst (get_layer_idx names n)) mn 21 ms g), snd (get_layer_idx names n)) /\
             one_per_key (flat_map (added stod dbl o) cs) ms)
      end
  end.
Proof.
  intros Hsrt Hs. unfold handle_feature. rewrite run_script_spec by assumption. cbn [p_approved p_zoom p_layer p_meta pending0 app].
  destruct (last_some (approval (area g)) cs) as [mn|]; cbn [negb]; [|reflexivity].
  destruct (last_some layer_of cs) as [[|c n]|]; cbn [verify negb bind]; try reflexivity.
  split; [intros ->; reflexivity|]. intros Hg. destruct (get_layer_idx names (c :: n)) as [i names'] eqn:E.
  exists (finish_metadata srt (flat_map (added stod dbl o) cs)). cbn [fst snd]. split; [|now apply finish_spec].
  destruct g; [easy|reflexivity|reflexivity|reflexivity].
Qed.

(** ** geometries *)
Lemma nodes_known ns : nodes_to_fixed ns = known ns.
Proof. induction ns as [|[p|] ns IH]; cbn [nodes_to_fixed known flat_map app]; [reflexivity|f_equal; exact IH|exact IH]. Qed.
Lemma pt_eqb_eq a b : pt_eqb a b = true <-> a = b.
Proof. unfold pt_eqb. destruct a, b. cbn [fst snd]. split; [intros; f_equal; lia|intros [= -> ->]; lia]. Qed.
Lemma close_ring_spec ps : ps <> [] -> closes ps (close_ring ps).
Proof.
  destruct ps as [|p tl]; [easy|]. intros _. exists p, tl. split; [reflexivity|]. unfold close_ring.
  destruct (pt_eqb p (last (p :: tl) p)) eqn:E.
  - left. apply pt_eqb_eq in E. auto.
  - right. split; [|reflexivity]. intros H. rewrite H in E. assert (pt_eqb p p = true) by now apply pt_eqb_eq. congruence.
Qed.
Lemma closes_fun ps r r' : closes ps r -> closes ps r' -> r = r'.
Proof.
  intros (p & tl & -> & [[H ->]|[H ->]]) (p' & tl' & E & [[H' ->]|[H' ->]]); injection E as <- <-; try reflexivity; congruence.
Qed.
Lemma closes_ne ps r : closes ps r -> ps <> [].
Proof. intros (p & tl & -> & _). discriminate. Qed.

Definition ring_of (ns : list loc) : line := close_ring (known ns).
Lemma read_inners is : forall o is0 acc rest, Forall (fun i => (3 <= length (ring_of i))%nat) is ->
  read_area_items ((o, is0) :: acc) (map AInner is ++ rest) = read_area_items ((o, is0 ++ map ring_of is) :: acc) rest.
Proof.
  induction is as [|i is IH]; intros o is0 acc rest H; cbn [map app].
  - now rewrite app_nil_r.
  - cbn [read_area_items]. rewrite nodes_known. fold (ring_of i). apply Forall_inv in H as H1. apply Forall_inv_tail in H.
    replace (length (ring_of i) <? 3)%nat with false by lia. rewrite IH by assumption. now rewrite <- app_assoc.
Qed.
Lemma read_parts parts : forall acc,
  Forall (fun p => (3 <= length (ring_of (fst p)))%nat /\ Forall (fun i => (3 <= length (ring_of i))%nat) (snd p)) parts ->
  parts <> [] \/ acc <> [] ->
  read_area_items acc (area_items parts) = Ok (GPoly (rev acc ++ map (fun p => (ring_of (fst p), map ring_of (snd p))) parts)).
Proof.
  induction parts as [|[o is] parts IH]; intros acc H Hne.
  - cbn [area_items flat_map map read_area_items]. rewrite app_nil_r. destruct acc; [destruct Hne; easy|reflexivity].
  - unfold area_items. cbn [flat_map fst snd app]. fold (area_items parts). cbn [read_area_items]. rewrite nodes_known. fold (ring_of o).
    pose proof (Forall_inv H) as [H1 H2]. cbn [fst snd] in *. replace (length (ring_of o) <? 3)%nat with false by lia.
    rewrite read_inners by assumption. rewrite IH.
    + cbn [rev map fst snd app]. rewrite <- app_assoc. reflexivity.
    + now apply Forall_inv_tail in H.
    + right. discriminate.
Qed.
Lemma read_area_rings items : forall acc, read_area_items acc items = read_area_items acc (filter is_ring items).
Proof.
  induction items as [|i items IH]; intros acc; [reflexivity|]. destruct i as [ns|ns|]; cbn [filter is_ring read_area_items].
  - destruct (length _ <? 3)%nat; [reflexivity | apply IH].
  - destruct acc as [|[o is] acc']; [reflexivity|]. destruct (length _ <? 3)%nat; [|apply IH]. destruct (close_ring _); [reflexivity | apply IH].
  - apply IH.
Qed.
Lemma area_spec items parts rings : parts <> [] -> filter is_ring items = area_items parts ->
  Forall2 (fun p r => closes (known (fst p)) (fst r) /\ (3 <= length (fst r))%nat /\
                      Forall2 (fun i ri => closes (known i) ri /\ (3 <= length ri)%nat) (snd p) (snd r)) parts rings ->
  read_area items = Ok (GPoly rings).
Proof.
  intros Hne HI F. unfold read_area. rewrite read_area_rings, HI. clear HI items. rewrite read_parts; [|clear Hne|now left].
  - cbn [rev app]. do 2 f_equal. clear Hne. induction F as [|p [ro ri] parts rings (C1 & C2 & C3) F IH]; [reflexivity|]. cbn [map fst snd] in *.
    rewrite IH. f_equal. f_equal.
    + eapply closes_fun; [apply close_ring_spec; eapply closes_ne; eauto|exact C1].
    + clear - C3. induction C3 as [|i r is rs [C _] F IH]; cbn [map]; [reflexivity|]. f_equal; [|exact IH].
      eapply closes_fun; [apply close_ring_spec; eapply closes_ne; eauto|exact C].
  - assert (L : forall i r, closes (known i) r -> (3 <= length r)%nat -> (3 <= length (ring_of i))%nat).
    { intros i r C Hl. unfold ring_of. rewrite (closes_fun _ _ _ (close_ring_spec _ (closes_ne _ _ C)) C). assumption. }
    induction F as [|p r parts rings (C1 & C2 & C3) F IH]; constructor; [|assumption]. split; [eauto|].
    clear - C3 L. induction C3 as [|i r1 is rs [C Hl] F1 IH1]; constructor; eauto.
Qed.
Lemma area_ub items : read_area items = UB -> exists ns, In (AInner ns) items /\ known ns = [].
Proof.
  unfold read_area. generalize (@nil poly). induction items as [|[ns|ns|] items IH]; intros acc; cbn [read_area_items].
  - destruct acc; discriminate.
  - destruct (_ <? 3)%nat; [discriminate|]. intros H. destruct (IH _ H) as (n & H1 & H2). exists n. split; [now right|assumption].
  - destruct acc as [|[o is] acc]; [discriminate|]. rewrite nodes_known. destruct (_ <? 3)%nat.
    + destruct (close_ring (known ns)) as [|p r] eqn:E.
      * intros _. exists ns. split; [now left|]. destruct (known ns) as [|q l]; [reflexivity|]. unfold close_ring in E. destruct (pt_eqb _ _); discriminate.
      * intros H. destruct (IH _ H) as (n & H1 & H2). exists n. split; [now right|assumption].
    + intros H. destruct (IH _ H) as (n & H1 & H2). exists n. split; [now right|assumption].
  - intros H. destruct (IH _ H) as (n & H1 & H2). exists n. split; [now right|assumption].
Qed.
