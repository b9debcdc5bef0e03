(** The node index: batch lookups, rejected streams, locations. *)
From Coq Require Import Permutation Sorted.
From Verif Require Import Base BaseProof ModelCodec ProofCodec ModelNodeIdx SpecNodeIdx SpecDict ProofNodeIdx.
Open Scope Z_scope.

(** what the queries shall set *)
Definition answers (ns : list (Z * npos)) (qs : list nquery) : list (nat * npos) :=
  flat_map (fun q => match find_id ns (fst q) with Some p => [(snd q, p)] | None => [] end) qs.
Lemma answers_app ns a b : answers ns (a ++ b) = answers ns a ++ answers ns b.
Proof. apply flat_map_app. Qed.
Lemma answers_none ns qs : (forall q, In q qs -> find_id ns (fst q) = None) -> answers ns qs = [].
Proof. induction qs as [|q qs IH]; intros H; [reflexivity|]. unfold answers. cbn [flat_map]. rewrite (H q) by now left. apply IH. intros. apply H. now right. Qed.

Notation qsorted := (StronglySorted (fun a b : nquery => fst a <= fst b)).

Lemma drop_below_spec c qs : qsorted qs -> exists a, qs = a ++ drop_below c qs /\ Forall (fun q => fst q < c) a /\ Forall (fun q => c <= fst q) (drop_below c qs).
Proof.
  induction 1 as [|[q s] qs HS IH F]; [exists []; repeat constructor|]. cbn [drop_below]. destruct (Z.ltb_spec q c) as [L|L].
  - destruct IH as (a & E & H1 & H2). exists ((q, s) :: a). cbn [app]. split; [now rewrite <- E|]. split; [constructor; assumption|exact H2].
  - exists []. split; [reflexivity|]. split; [constructor|]. constructor; [exact L|]. eapply Forall_impl; [|exact F]. cbn [fst]. intros. lia.
Qed.
Lemma sorted_tail {A} (R : A -> A -> Prop) a b : StronglySorted R (a ++ b) -> StronglySorted R b.
Proof. induction a as [|x a IH]; [auto|]. cbn [app]. intros H. inversion H. auto. Qed.
Lemma set_equal_spec c p qs : forall ws, qsorted qs -> Forall (fun q => c <= fst q) qs ->
  exists a b, qs = a ++ b /\ Forall (fun q => fst q = c) a /\ Forall (fun q => c < fst q) b /\ set_equal c p qs ws = (b, ws ++ map (fun q => (snd q, p)) a).
Proof.
  induction qs as [|[q s] qs IH]; intros ws HS HF.
  - exists [], []. split; [reflexivity|]. split; [apply Forall_nil|]. split; [apply Forall_nil|]. cbn [set_equal map]. now rewrite app_nil_r.
  - inversion HS as [|? ? S1 S2]. inversion HF as [|? ? F1 F2]. subst. cbn [fst] in *. cbn [set_equal]. destruct (Z.eqb_spec q c) as [->|Ne].
    + destruct (IH (ws ++ [(s, p)]) S1 F2) as (a & b & -> & H1 & H2 & H3). exists ((c, s) :: a), b. split; [reflexivity|]. split; [constructor; auto|]. split; [exact H2|].
      rewrite H3. cbn [map snd]. now rewrite <- app_assoc.
    + exists [], ((q, s) :: qs). split; [reflexivity|]. split; [constructor|]. split; [|cbn [map]; now rewrite app_nil_r].
      constructor; [cbn [fst]; lia|]. eapply Forall_impl; [|exact S2]. cbn [fst]. intros. lia.
Qed.
Lemma answers_equal ns c p a : find_id ns c = Some p -> Forall (fun q => fst q = c) a -> answers ns a = map (fun q => (snd q, p)) a.
Proof. intros H. induction 1 as [|q a E F IH]; [reflexivity|]. unfold answers. cbn [flat_map map]. rewrite E, H. cbn [app]. f_equal. exact IH. Qed.

Lemma zz_bound a b : 0 <= a < 2 ^ 32 -> 0 <= b < 2 ^ 32 -> (zigzag (b - a) < 2 ^ 64)%N.
Proof. intros Ha Hb. apply zigzag_bound. now apply delta_small. Qed.

Lemma skip_coords_spec cs : forall fuel x y bs, (length cs < fuel)%nat -> Forall pos_ok ((x, y) :: cs) ->
  skip_coords fuel (N.of_nat (length cs)) (span_deltas x y cs ++ bs) = Ok bs.
Proof.
  induction cs as [|[x' y'] cs IH]; intros fuel x y bs Hf F; (destruct fuel as [|fuel]; [lia|]); cbn [skip_coords length] in *.
  - reflexivity.
  - destruct (N.eqb_spec (N.of_nat (S (length cs))) 0) as [E|_]; [lia|]. cbn [span_deltas]. rewrite <- !app_assoc.
    inversion F as [|? ? [F1 F2] F3]. subst. inversion F3 as [|? ? [F4 F5] F6]. subst. cbn [fst snd] in *.
    rewrite skip_enc by now apply zz_bound. cbn [bind]. rewrite skip_enc by now apply zz_bound. cbn [bind].
    replace (N.of_nat (S (length cs)) - 1)%N with (N.of_nat (length cs)) by lia. apply IH; [lia|exact F3].
Qed.

(** going forward in a span *)
Lemma advance_spec cs : forall fuel cur x y bs size pos q, (length cs < fuel)%nat -> Forall pos_ok ((x, y) :: cs) -> 0 <= cur -> cur + 1 + zlen cs < 2 ^ 63 ->
  size - pos = 1 + zlen cs -> cur <= q < cur + 1 + zlen cs ->
  exists a x' y' b, (x, y) :: cs = a ++ (x', y') :: b /\ cur + zlen a = q /\
    advance fuel cur (span_deltas x y cs ++ bs) size pos x y q = Ok (q, span_deltas x' y' b ++ bs, pos + zlen a, x', y').
Proof.
  induction cs as [|[x1 y1] cs IH]; intros fuel cur x y bs size pos q Hf F Hc Hb Hs Hq; (destruct fuel as [|fuel]; [lia|]); cbn [advance].
  - cbn [length] in *. exists [], x, y, []. split; [reflexivity|]. cbn [length]. destruct (Z.eqb_spec cur q) as [->|Ne]; [|lia]. split; [lia|]. do 5 f_equal. lia.
  - destruct (Z.eqb_spec cur q) as [->|Ne].
    + exists [], x, y, ((x1, y1) :: cs). split; [reflexivity|]. cbn [length]. split; [lia|]. do 5 f_equal. lia.
    + cbn [length] in *. cbn [span_deltas]. rewrite <- !app_assoc. rewrite varint_app_nonnil. cbn [negb verify bind]. destruct (Z.ltb_spec pos size); [|lia]. cbn [verify bind].
      inversion F as [|? ? [F1 F2] F3]. subst. inversion F3 as [|? ? [F4 F5] F6]. subst. cbn [fst snd] in *.
      rewrite delta_read by assumption. cbn [bind]. rewrite delta_read by assumption. cbn [bind]. rewrite add64_ok by lia. cbn [bind].
      destruct (IH fuel (cur + 1) x1 y1 bs size (pos + 1) q) as (a & x' & y' & b & E1 & E2 & E3); try lia; [exact F3|]. exists ((x, y) :: a), x', y', b.
      split; [cbn [app]; now rewrite <- E1|]. cbn [length]. split; [lia|]. rewrite E3. do 4 f_equal. lia.
Qed.

Section Run.
Variable e : Z.
Variable idx : list (Z * N).
Variable dat : bytes.
Variable all : list (Z * npos).
Hypothesis Hx : index_ok [1%N] e idx dat all.
Hypothesis He : e + 1024 < 2 ^ 63.
Hypothesis Hn : Z.of_nat (length all) < 2 ^ 31.
Notation L := (length dat).

Definition st_ok (st : nfsm) (qs : list nquery) : Prop :=
  match st with
  | FromIndex => True
  | SpanStart cur bs => exists ns, part [1%N] e cur ns bs /\ 0 <= cur /\ (length bs <= L)%nat /\ (length ns <= length all)%nat /\
      forall q, In q qs -> find_id all (fst q) = find_id ns (fst q)
  | InSpan cur bs size pos x y => exists cs ns b', bs = span_deltas x y cs ++ b' /\ Forall pos_ok ((x, y) :: cs) /\ part [1%N] e (cur + 1 + zlen cs) ns b' /\
      size - pos = 1 + zlen cs /\ 0 <= cur /\ (length bs <= L)%nat /\ (1 + length cs + length ns <= length all)%nat /\ cur + 1 + zlen cs < 2 ^ 63 /\
      forall q, In q qs -> cur <= fst q /\ find_id all (fst q) = find_id ((cur, (x, y)) :: number (cur + 1) cs ++ ns) (fst q)
  end.

Definition after_first (qs : list nquery) : Prop := match idx with [] => False | (f, _) :: _ => Forall (fun q => f <= fst q) qs end.
Lemma after_first_app a b : after_first (a ++ b) -> after_first b.
Proof. unfold after_first. destruct idx as [|[f o] i]; [auto|]. intros H. now apply Forall_app in H. Qed.

(** how many steps are needed *)
Definition need (st : nfsm) (qs : list nquery) : nat :=
  match qs with
  | [] => 1
  | q :: qs' =>
      (3 * L + 12) * length qs' +
      match st with
      | FromIndex => L + 5
      | SpanStart _ bs => length bs + 3
      | InSpan cur _ size pos _ _ => if (fst q <? cur + (size - pos))%Z then 2 else L + 6
      end
  end%nat.

Lemma need_le st qs' n : (length qs' <= n)%nat -> (need st qs' <= (3 * L + 12) * n + (if match st with SpanStart _ bs => (length bs <=? L)%nat | _ => true end then 0 else 100 + match st with SpanStart _ bs => length bs | _ => 0 end) + 1)%nat.
Proof.
  intros H. destruct qs' as [|q qs']; cbn [need length] in *; [lia|]. destruct st as [|cur bs|cur bs size pos x y].
  - nia.
  - destruct (Nat.leb_spec (length bs) L); nia.
  - destruct (_ <? _); nia.
Qed.

Lemma batch_spec : forall fuel st qs ws, (need st qs <= fuel)%nat -> qsorted qs -> after_first qs -> st_ok st qs ->
  batch idx dat fuel st qs ws = Ok (ws ++ answers all qs).
Proof.
  destruct Hx as (X1 & X2 & X3).
  induction fuel as [|fuel IH]; intros st qs ws Hf HS HA HO.
  { destruct qs as [|q qs]; cbn [need] in Hf; [lia|]. destruct st; try lia. destruct (_ <? _); lia. }
  cbn [batch]. destruct qs as [|[q s] qs]; [unfold answers; cbn [flat_map]; now rewrite app_nil_r|].
  assert (Hq : forall a b, (q, s) :: qs = a ++ b -> qsorted b) by (intros a b E; rewrite E in HS; exact (sorted_tail _ _ _ HS)).
  assert (Ha : forall a b, (q, s) :: qs = a ++ b -> after_first b) by (intros a b E; rewrite E in HA; exact (after_first_app _ _ HA)).
  destruct st as [|cur bs|cur bs size pos x y]; cbn [st_ok] in HO; cbn [need fst] in Hf.
  - (* FromIndex *)
    pose proof (find_entry_spec idx q X1) as FE.
    destruct (find_entry idx q) as [[c off]|].
    + destruct FE as [F1 F2]. cbn [fst] in F2. destruct (proj1 (Forall_forall _ _) X3 _ F1) as (Hc & na & nb & da & db & E1 & E2 & E3 & E4 & E5). cbn [fst snd] in *. subst off.
      destruct (N.ltb_spec (blen dat) (blen da)) as [L0|_]; [rewrite E2, blen_app in L0; lia|].
      assert (ES : skipn (N.to_nat (blen da)) dat = db) by (rewrite E2; apply skipn_app_exact'; unfold blen; lia). rewrite ES.
      assert (LD : (length db <= L)%nat) by (rewrite E2, app_length; lia).
      apply IH; [cbn [need]; lia|exact HS|exact HA|]. exists nb. split; [exact E5|]. split; [exact Hc|]. split; [exact LD|]. split; [rewrite E1, app_length; lia|].
      intros q' Hq'. rewrite E1. apply find_id_skip. assert (q <= fst q'). { inversion HS as [|? ? S1 S2]. destruct Hq' as [<-|Hq']; [cbn [fst]; lia|]. exact (proj1 (Forall_forall _ _) S2 _ Hq'). }
      eapply Forall_impl; [|exact E4]. cbn beta. intros. lia.
    + unfold after_first in HA. destruct idx as [|[f o] idx']; [contradiction|]. inversion HA. subst. cbn [fst] in *. lia.
  - (* SpanStart *)
    destruct HO as (ns & P & Hc & HL & Hlen & HQ).
    inversion P as [E1 E2 E3|c g ns' bs' G B P' E1 E2 E3|c x y cs ns' bs' F B P' E1 E2 E3]; subst.
    + (* end *)
      change (varint_dec [1%N]) with (Ok (1%N, @nil N)). cbn [bind]. change (N.odd 1) with true. change (Z.of_N (1 / 2)) with 0. cbn iota. cbn [Z.eqb].
      rewrite answers_none; [now rewrite app_nil_r|]. intros q' Hq'. rewrite (HQ q' Hq'). reflexivity.
    + destruct (gap_header g G) as (E1 & E2 & E3); [lia|]. rewrite varint_roundtrip by exact E1. cbn [bind]. rewrite E2, E3. rewrite Z2N.id by lia.
      destruct (Z.eqb_spec g 0); [lia|]. rewrite add64_ok by lia. cbn [bind]. rewrite app_length in HL, Hf. pose proof (varint_len_pos (Z.to_N (g * 2) + 1)) as HP.
      apply IH; [cbn [need]; lia|exact HS|exact HA|]. exists ns. split; [exact P'|]. split; [lia|]. split; [lia|]. split; [exact Hlen|exact HQ].
    + destruct (coord_header (length cs)) as (E1 & E2 & E3); [lia|]. rewrite varint_roundtrip by exact E1. cbn [bind]. rewrite E2, E3.
      rewrite nat_N_Z. rewrite add64_ok by lia. cbn [bind]. cbn [length] in Hlen. rewrite app_length, number_len in Hlen.
      pose proof F as F'. inversion F' as [|? ? [F1 F2] F3]. subst. cbn [fst snd] in *.
      rewrite !app_length, !fixed_len in HL, Hf. pose proof (varint_len_pos (N.of_nat (length cs) * 2)) as HP.
      destruct (part_ids _ _ _ _ _ P') as [Pe _].
      destruct (Z.ltb_spec q cur) as [Lq|Lq].
      * (* missing queries *)
        destruct (drop_below_spec cur ((q, s) :: qs) HS) as (a & Ea & A1 & A2). set (qs' := drop_below cur ((q, s) :: qs)) in *. clearbody qs'.
        rewrite fixed_read by exact F1. cbn [bind]. rewrite fixed_read by exact F2. cbn [bind].
        assert (La : (length qs' <= length qs)%nat).
        { destruct a as [|a0 a]; [cbn [app] in Ea; subst qs'; inversion A2; subst; cbn [fst] in *; lia|]. apply (f_equal (@length _)) in Ea. rewrite app_length in Ea. cbn [length] in Ea. lia. }
        rewrite IH; [|  |exact (Hq a qs' Ea)|exact (Ha a qs' Ea)|].
        -- rewrite Ea, answers_app. rewrite (answers_none all a); [reflexivity|]. intros q' Hq'. rewrite (HQ q'); [|rewrite Ea; apply in_app_iff; auto].
           pose proof (proj1 (Forall_forall _ _) A1 q' Hq') as LQ. cbn beta in LQ. apply find_id_none. eapply Forall_impl; [|exact (proj2 (part_ids _ _ _ _ _ P))]. cbn beta. intros. lia.
        -- pose proof (need_le (InSpan cur (span_deltas x y cs ++ bs') (zlen cs + 1) 0 x y) qs' (length qs) La) as NL. cbn iota in NL. lia.
        -- exists cs, ns', bs'. split; [reflexivity|]. split; [exact F|]. split; [exact P'|]. split; [lia|]. split; [exact Hc|]. split; [rewrite app_length; lia|]. split; [lia|]. split; [exact B|].
           intros q' Hq'. split; [exact (proj1 (Forall_forall _ _) A2 q' Hq')|]. apply HQ. rewrite Ea. apply in_app_iff. auto.
      * rewrite add64_ok by lia. cbn [bind]. destruct (Z.ltb_spec q (cur + (zlen cs + 1))) as [Li|Li].
        -- rewrite fixed_read by exact F1. cbn [bind]. rewrite fixed_read by exact F2. cbn [bind]. apply IH; [|exact HS|exact HA|].
           ++ cbn [need fst]. destruct (Z.ltb_spec q (cur + (zlen cs + 1 - 0))); lia.
           ++ exists cs, ns', bs'. split; [reflexivity|]. split; [exact F|]. split; [exact P'|]. split; [lia|]. split; [exact Hc|]. split; [rewrite app_length; lia|]. split; [lia|]. split; [exact B|].
              intros q' Hq'. split; [|now apply HQ]. inversion HS as [|? ? S1 S2]. destruct Hq' as [<-|Hq']; [exact Lq|]. pose proof (proj1 (Forall_forall _ _) S2 q' Hq') as T. cbn [fst] in T. lia.
        -- destruct (N.ltb_spec (blen (fixed_enc x ++ fixed_enc y ++ span_deltas x y cs ++ bs')) 8) as [L8|_].
           { unfold blen in L8. rewrite !app_length, !fixed_len in L8. lia. }
           assert (ES : skipn 8 (fixed_enc x ++ fixed_enc y ++ span_deltas x y cs ++ bs') = span_deltas x y cs ++ bs').
           { rewrite app_assoc. apply skipn_app_exact'. rewrite app_length, !fixed_len. reflexivity. }
           rewrite ES. replace (Z.to_N (zlen cs)) with (N.of_nat (length cs)) by lia. rewrite skip_coords_spec; [|rewrite !app_length, !fixed_len; pose proof (deltas_len cs x y); lia|exact F].
           cbn [bind]. destruct (Z.leb_spec (2 ^ 31) (zlen cs + 1)) as [LL|_]; [lia|]. replace (cur + (zlen cs + 1)) with (cur + 1 + zlen cs) by lia.
           apply IH; [cbn [need]; lia|exact HS|exact HA|]. exists ns'. split; [exact P'|]. split; [lia|]. split; [lia|]. split; [lia|].
           intros q' Hq'. rewrite (HQ q' Hq'). assert (q <= fst q'). { inversion HS as [|? ? S1 S2]. destruct Hq' as [<-|Hq']; [cbn [fst]; lia|]. exact (proj1 (Forall_forall _ _) S2 _ Hq'). }
           rewrite find_id_cons. destruct (Z.eqb_spec cur (fst q')); [lia|]. apply find_id_skip. eapply Forall_impl; [|apply number_ids]. cbn beta. intros. lia.
  - (* InSpan *)
    destruct HO as (cs & ns & b' & -> & F & P & Hsz & Hc & HL & Hlen & HB & HQ). rewrite Hsz in *.
    destruct (part_ids _ _ _ _ _ P) as [Pe _]. rewrite app_length in HL. pose proof (deltas_len cs x y) as DL.
    destruct (HQ (q, s) (or_introl eq_refl)) as [Q1 Q2]. cbn [fst] in Q1, Q2.
    rewrite add64_ok by lia. cbn [bind]. destruct (Z.ltb_spec q (cur + (1 + zlen cs))) as [Li|Li].
    + destruct (advance_spec cs (S (length (span_deltas x y cs ++ b'))) cur x y b' size pos q) as (a & x' & y' & b & A1 & A2 & A3); try lia; [rewrite app_length; lia|exact F|].
      rewrite A3. cbn [bind]. rewrite Z.eqb_refl. cbn [verify bind].
      assert (EN : (cur, (x, y)) :: number (cur + 1) cs = number cur a ++ (q, (x', y')) :: number (q + 1) b).
      { change ((cur, (x, y)) :: number (cur + 1) cs) with (number cur ((x, y) :: cs)). rewrite A1, number_app, A2. reflexivity. }
      assert (EL : S (length cs) = (length a + S (length b))%nat) by (apply (f_equal (@length _)) in A1; rewrite app_length in A1; cbn [length] in A1; exact A1).
      assert (FN : find_id all q = Some (x', y')).
      { rewrite Q2. rewrite app_comm_cons, EN, <- app_assoc. rewrite find_id_skip; [|eapply Forall_impl; [|apply number_ids]; cbn beta; intros; lia]. rewrite <- app_comm_cons, find_id_cons, Z.eqb_refl. reflexivity. }
      destruct (set_equal_spec q (x', y') ((q, s) :: qs) ws HS) as (a1 & b1 & B1 & B2 & B3 & B4).
      { inversion HS as [|? ? S1 S2]. constructor; [cbn [fst]; lia|]. exact S2. }
      rewrite B4. rewrite IH; [|  |exact (Hq a1 b1 B1)|exact (Ha a1 b1 B1)|].
      * rewrite B1, answers_app, (answers_equal all q (x', y') a1 FN B2), app_assoc. reflexivity.
      * assert (La : (length b1 <= length qs)%nat).
        { destruct a1 as [|a0 a1]; [cbn [app] in B1; subst b1; inversion B3; subst; cbn [fst] in *; lia|]. apply (f_equal (@length _)) in B1. rewrite app_length in B1. cbn [length] in B1. lia. }
        pose proof (need_le (InSpan q (span_deltas x' y' b ++ b') size (pos + zlen a) x' y') b1 (length qs) La) as NL. cbn iota in NL. lia.
      * rewrite A1 in F. apply Forall_app in F as [_ F].
        assert (LB : (length (span_deltas x' y' b) <= length (span_deltas x y cs))%nat).
        { clear -A1. revert x y cs A1. induction a as [|[xa ya] a IHa]; intros x y cs E; cbn [app] in E.
          - injection E as -> -> ->. lia.
          - injection E as -> -> ->. destruct a as [|[xb yb] a']; cbn [app].
            + cbn [span_deltas]. rewrite !app_length. lia.
            + cbn [span_deltas]. rewrite !app_length. specialize (IHa xb yb (a' ++ (x', y') :: b) eq_refl). lia. }
        exists b, ns, b'. split; [reflexivity|]. split; [exact F|]. split; [|split; [lia|split; [lia|split; [rewrite app_length; lia|split; [lia|split; [lia|]]]]]].
        { replace (q + 1 + zlen b) with (cur + 1 + zlen cs) by lia. exact P. }
        intros q' Hq'. pose proof (proj1 (Forall_forall _ _) B3 q' Hq') as LQ. cbn beta in LQ. split; [lia|].
        rewrite (proj2 (HQ q' ltac:(rewrite B1; apply in_app_iff; auto))). rewrite app_comm_cons, EN, <- app_assoc. rewrite <- app_comm_cons. apply find_id_skip.
        eapply Forall_impl; [|apply number_ids]. cbn beta. intros. lia.
    + rewrite add64_ok by lia. cbn [bind]. destruct (Z.ltb_spec (cur + 1024) q) as [Lf|Lf].
      * apply IH; [cbn [need]; lia|exact HS|exact HA|exact I].
      * replace (Z.max 0 (size - (pos + 1))) with (zlen cs) by lia. replace (Z.to_N (zlen cs)) with (N.of_nat (length cs)) by lia.
        rewrite skip_coords_spec; [|rewrite app_length; lia|exact F]. cbn [bind]. rewrite add64_ok by lia. cbn [bind]. rewrite add64_ok by lia. cbn [bind].
        replace (cur + zlen cs + 1) with (cur + 1 + zlen cs) by lia. apply IH; [cbn [need]; lia|exact HS|exact HA|].
        exists ns. split; [exact P|]. split; [lia|]. split; [lia|]. split; [lia|].
        intros q' Hq'. rewrite (proj2 (HQ q' Hq')). assert (q <= fst q'). { inversion HS as [|? ? S1 S2]. destruct Hq' as [<-|Hq']; [cbn [fst]; lia|]. exact (proj1 (Forall_forall _ _) S2 _ Hq'). }
        rewrite find_id_cons. destruct (Z.eqb_spec cur (fst q')); [lia|]. apply find_id_skip. eapply Forall_impl; [|apply number_ids]. cbn beta. intros. lia.
Qed.
End Run.

(** ** the whole batch *)
Lemma abs_queries qs : Forall (fun q => -2 ^ 63 < fst q) qs -> map_res (fun q : Z * nat => do a <- abs64 (fst q); Ok (a, snd q)) qs = Ok (map (fun q => (Z.abs (fst q), snd q)) qs).
Proof.
  induction 1 as [|[id s] qs H F IH]; [reflexivity|]. cbn [map_res map fst snd] in *. rewrite abs64_ok by exact H. cbn [bind]. rewrite IH. reflexivity.
Qed.
Lemma answers_perm ns a b : Permutation a b -> Permutation (answers ns a) (answers ns b).
Proof. apply Permutation_flat_map. Qed.

Lemma get_batch_spec e idx dat all srt qs : index_ok [1%N] e idx dat all -> (idx <> [] -> e + 1024 < 2 ^ 63) -> Z.of_nat (length all) < 2 ^ 31 ->
  sorts query_ltb srt -> Forall (fun q => -2 ^ 63 < fst q) qs ->
  exists ws, get_batch idx dat srt qs = Ok ws /\ Permutation ws (answers all (map (fun q => (Z.abs (fst q), snd q)) qs)).
Proof.
  intros HI He Hn Hs Hq. unfold get_batch. destruct idx as [|[f o] idx'] eqn:EI.
  - exists []. split; [reflexivity|]. destruct HI as (_ & -> & _). rewrite answers_none; [constructor|reflexivity].
  - rewrite <- EI in *. rewrite abs_queries by exact Hq. cbn [bind]. set (qa := map (fun q => (Z.abs (fst q), snd q)) qs). destruct (Hs qa) as [P1 P2].
    assert (PS : qsorted (srt qa)). { clear -P2. induction P2 as [|a l S IH F]; constructor; [exact IH|]. eapply Forall_impl; [|exact F]. cbn beta. unfold query_ltb. intros b. lia. }
    destruct (drop_below_spec f (srt qa) PS) as (a & Ea & A1 & A2). set (qd := drop_below f (srt qa)) in *. clearbody qd.
    assert (Hx : idx <> []) by (rewrite EI; discriminate).
    assert (Ld : (length qd <= length qa)%nat). { apply Permutation_length in P1. rewrite <- P1, Ea, app_length. lia. }
    rewrite (batch_spec e idx dat all HI (He Hx) Hn).
    + cbn [app]. eexists. split; [reflexivity|]. etransitivity; [|apply answers_perm; exact P1]. rewrite Ea, answers_app, (answers_none all a); [reflexivity|].
      intros q Hin. apply find_id_none. pose proof (proj1 (Forall_forall _ _) A1 q Hin) as LQ. cbn beta in LQ. destruct HI as (_ & HF & _). rewrite EI in HF. eapply Forall_impl; [|exact HF]. cbn beta. intros. lia.
    + unfold need. destruct qd as [|q0 qd0]; cbn [length] in *; nia.
    + rewrite Ea in PS. exact (sorted_tail _ _ _ PS).
    + unfold after_first. rewrite EI. exact A2.
    + exact I.
Qed.

Lemma answers_nodup ns qs : NoDup (map snd qs) -> NoDup (map fst (answers ns qs)) /\ forall x, In x (map fst (answers ns qs)) -> In x (map snd qs).
Proof.
  intros ND. induction qs as [|[q s] qs IH]; [split; [constructor|intros x []]|]. cbn [map snd] in ND. inversion ND as [|? ? N1 N2]. subst. destruct (IH N2) as [I1 I2].
  unfold answers. cbn [flat_map fst snd]. fold (answers ns qs). destruct (find_id ns q); cbn [app map fst snd]; [|split; [exact I1|intros x Hx; right; auto]].
  split; [constructor; [intros H; apply N1; auto|exact I1]|]. intros x [<-|Hx]; [now left|right; auto].
Qed.

(** looking up the slots *)
Lemma answers_slots ns qs s : NoDup (map snd qs) -> forall id, In (id, s) qs -> forall ws, Permutation ws (answers ns qs) -> assoc_slot s ws = find_id ns id.
Proof.
  intros ND id Hin ws P.
  assert (NA : NoDup (map fst (answers ns qs)) /\ forall x, In x (map fst (answers ns qs)) -> In x (map snd qs)).
  { clear -ND. induction qs as [|[q s] qs IH]; [split; [constructor|intros x []]|]. cbn [map snd] in ND. inversion ND as [|? ? N1 N2]. subst. destruct (IH N2) as [I1 I2].
    unfold answers. cbn [flat_map fst snd]. fold (answers ns qs). destruct (find_id ns q); cbn [app map fst snd]; [|split; [exact I1|intros x Hx; right; auto]].
    split; [constructor; [intros H; apply N1; auto|exact I1]|]. intros x [<-|Hx]; [now left|right; auto]. }
  destruct NA as [NA _].
  assert (NW : NoDup (map fst ws)) by (eapply Permutation_NoDup; [apply Permutation_map, Permutation_sym, P|exact NA]).
  assert (KEY : forall p, In (s, p) ws <-> find_id ns id = Some p).
  { intros p. split.
    - intros Hp. apply (Permutation_in _ P) in Hp. unfold answers in Hp. apply in_flat_map in Hp as ([q s'] & H1 & H2). cbn [fst snd] in H2. destruct (find_id ns q) eqn:E; [|destruct H2].
      destruct H2 as [H2|[]]. apply (f_equal fst) in H2 as E1. apply (f_equal snd) in H2 as E2. cbn [fst snd] in E1, E2. subst s' p.
      assert (EQ : (q, s) = (id, s)). { clear -ND H1 Hin. induction qs as [|[a b] qs IH]; [destruct H1|]. cbn [map snd] in ND. inversion ND as [|? ? N1 N2]. subst.
        destruct H1 as [H1|H1], Hin as [H2|H2].
        - congruence.
        - exfalso. apply N1. apply in_map_iff. exists (id, s). split; [|exact H2]. cbn [snd]. congruence.
        - exfalso. apply N1. apply in_map_iff. exists (q, s). split; [|exact H1]. cbn [snd]. congruence.
        - auto. }
      congruence.
    - intros E. apply (Permutation_in _ (Permutation_sym P)). unfold answers. apply in_flat_map. exists (id, s). split; [exact Hin|]. cbn [fst snd]. rewrite E. now left. }
  unfold assoc_slot. destruct (find (fun w => (fst w =? s)%nat) ws) as [[s' p]|] eqn:EF.
  - apply find_some in EF as [H1 H2]. cbn [fst] in H2. apply Nat.eqb_eq in H2. subst s'. cbn [option_map snd]. symmetry. now apply KEY.
  - cbn [option_map]. destruct (find_id ns id) as [p|] eqn:E; [|reflexivity]. assert (Hp : In (s, p) ws) by (apply KEY; reflexivity). pose proof (find_none _ _ EF _ Hp) as H. cbn [fst] in H. rewrite Nat.eqb_refl in H. discriminate.
Qed.

(** ** which streams are accepted *)
Lemma push_accepts b id p b' : nb_push b id p = Ok b' -> -2 ^ 63 < id -> pos_ok p /\ nb_last b' = Z.abs id /\ nb_pos b' = p /\ (nb_last b < Z.abs id \/ nb_last b = Z.abs id /\ nb_pos b = p).
Proof.
  unfold nb_push. intros H Hid. apply bind_ok in H as (u & H1 & H). apply verify_ok in H1 || (destruct u; apply verify_ok in H1). rewrite abs64_ok in H by exact Hid. cbn [bind] in H.
  assert (Hp : pos_ok p) by (unfold pos_ok; lia). split; [exact Hp|].
  destruct (Z.eqb_spec (Z.abs id) (nb_last b)) as [E|E].
  - apply bind_ok in H as (u2 & H2 & H). destruct u2. apply verify_ok in H2. apply Ok_inj in H. subst b'. split; [auto|].
    assert (EP : nb_pos b = p) by (destruct p as [p1 p2], (nb_pos b) as [b1 b2]; cbn [fst snd] in *; f_equal; lia). split; [exact EP|]. right. auto.
  - apply bind_ok in H as (u2 & H2 & H). destruct u2. apply verify_ok in H2. apply bind_ok in H as (n & _ & H). apply bind_ok in H as (b1 & _ & H). apply Ok_inj in H. subst b'. cbn [nb_last nb_pos].
    split; [reflexivity|]. split; [reflexivity|]. left. lia.
Qed.
Lemma accepted_gen ns : forall b b', push_nodes b ns = Ok b' -> Forall (fun n => Z.abs (fst n) < 2 ^ 63) ns ->
  Forall (fun n => Z.abs (fst n) < 2 ^ 63 /\ pos_ok (snd n)) ns /\
  Sorted (fun a b => Z.abs (fst a) < Z.abs (fst b) \/ Z.abs (fst a) = Z.abs (fst b) /\ snd a = snd b) ns /\
  match ns with [] => True | n :: _ => nb_last b < Z.abs (fst n) \/ nb_last b = Z.abs (fst n) /\ nb_pos b = snd n end.
Proof.
  induction ns as [|[id p] ns IH]; intros b b' H F; [repeat constructor|]. cbn [push_nodes] in H. apply bind_ok in H as (b1 & H1 & H2). inversion F as [|? ? F1 F2]. subst. cbn [fst] in F1.
  destruct (push_accepts b id p b1 H1) as (P1 & P2 & P3 & P4); [lia|]. destruct (IH b1 b' H2 F2) as (I1 & I2 & I3). split; [constructor; auto|]. split; [|exact P4].
  constructor; [exact I2|]. destruct ns as [|n ns]; constructor. cbn [fst snd]. rewrite <- P2, <- P3. exact I3.
Qed.

(** ** the properties *)
Lemma batch_main srt ns idx dat : sorts query_ltb srt -> valid_stream (2 ^ 62) ns -> Z.of_nat (length ns) < 2 ^ 31 -> build_index ns = Ok (idx, dat) ->
  forall qs, Forall (fun q => -2 ^ 63 < fst q < 2 ^ 63) qs -> NoDup (map snd qs) ->
  exists ws, get_batch idx dat srt qs = Ok ws /\ NoDup (map fst ws) /\ (forall s, In s (map fst ws) -> In s (map snd qs)) /\
    forall id s, In (id, s) qs -> assoc_slot s ws = node_of ns id /\ get_coords idx dat id = Ok (assoc_slot s ws).
Proof.
  intros Hs HV Hn HB qs Hq ND. destruct (build_spec (2 ^ 62) ns ltac:(lia) HV) as (idx' & dat' & e & ms & H1 & H2 & He & Hl & Hlt & H3).
  rewrite HB in H1. apply Ok_inj in H1. apply (f_equal fst) in H1 as E1. apply (f_equal snd) in H1 as E2. cbn [fst snd] in E1, E2. subst idx' dat'.
  destruct (get_batch_spec e idx dat ms srt qs H2) as (ws & W1 & W2); [intros E; specialize (He E); lia|lia|exact Hs|eapply Forall_impl; [|exact Hq]; cbn beta; intros; lia|].
  exists ws. split; [exact W1|]. set (qa := map (fun q => (Z.abs (fst q), snd q)) qs) in *.
  assert (ES : map snd qa = map snd qs) by (subst qa; rewrite map_map; reflexivity).
  assert (NDa : NoDup (map snd qa)) by now rewrite ES.
  destruct (answers_nodup ms qa NDa) as [A1 A2]. split; [|split].
  - eapply Permutation_NoDup; [apply Permutation_map, Permutation_sym, W2|exact A1].
  - intros s Hin. rewrite <- ES. apply A2. eapply Permutation_in; [apply Permutation_map, W2|exact Hin].
  - intros id s Hin. assert (Hin2 : In (Z.abs id, s) qa) by (apply in_map_iff; exists (id, s); auto).
    rewrite (answers_slots ms qa s NDa (Z.abs id) Hin2 ws W2). split; [apply H3|].
    apply (get_coords_spec e idx dat ms id H2). exact (proj1 (Forall_forall _ _) Hq _ Hin).
Qed.

Lemma node_of_map nodes id : node_of (map (fun n : Z * npos => (fst n, node_pos (snd n))) nodes) id = option_map node_pos (node_of nodes id).
Proof. unfold node_of. induction nodes as [|[i l] nodes IH]; [reflexivity|]. cbn [map find fst]. destruct (Z.abs i =? Z.abs id); [reflexivity|exact IH]. Qed.
Lemma node_of_in nodes id l : node_of nodes id = Some l -> exists i, In (i, l) nodes.
Proof. unfold node_of. destruct (find _ nodes) as [[i l']|] eqn:E; [|discriminate]. cbn [option_map snd]. intros H. injection H as ->. apply find_some in E as [E _]. now exists i. Qed.

Lemma to_i32_small z : - 2 ^ 31 <= z < 2 ^ 31 -> to_i32 z = z.
Proof.
  intros H. unfold to_i32. destruct (Z.ltb_spec z 0) as [L|L].
  - rewrite <- (Z.mod_add z 1) by lia. rewrite Z.mod_small by lia. destruct (Z.ltb_spec (z + 1 * 2 ^ 32) (2 ^ 31)); lia.
  - rewrite Z.mod_small by lia. destruct (Z.ltb_spec z (2 ^ 31)); lia.
Qed.
Lemma to_i32_big z : 2 ^ 31 <= z < 2 ^ 32 -> to_i32 z = z - 2 ^ 32.
Proof. intros H. unfold to_i32. rewrite Z.mod_small by lia. destruct (Z.ltb_spec z (2 ^ 31)); lia. Qed.

Lemma way_main nodes idx dat refs : Forall (fun n => loc_ok (snd n)) nodes ->
  valid_stream (2 ^ 63 - 1) (map (fun n => (fst n, node_pos (snd n))) nodes) ->
  build_index (map (fun n => (fst n, node_pos (snd n))) nodes) = Ok (idx, dat) ->
  forall locs, Forall2 (fun id l => -2 ^ 63 < id < 2 ^ 63 /\ node_of nodes id = Some l) refs locs -> way_locations idx dat refs = Ok locs.
Proof.
  intros HL HV HB locs F. destruct (build_spec (2 ^ 63 - 1) _ (Z.le_refl _) HV) as (idx' & dat' & e & ms & H1 & H2 & He & Hl & Hlt & H3).
  rewrite HB in H1. apply Ok_inj in H1. apply (f_equal fst) in H1 as E1. apply (f_equal snd) in H1 as E2. cbn [fst snd] in E1, E2. subst idx' dat'.
  unfold way_locations. induction F as [|id l refs locs [I1 I2] F IH]; [reflexivity|]. cbn [map_res]. rewrite (get_coords_spec e idx dat ms id H2 I1), H3, node_of_map, I2. cbn [option_map bind node_pos].
  destruct (node_of_in _ _ _ I2) as (i & Hin). pose proof (proj1 (Forall_forall _ _) HL _ Hin) as [L1 L2]. cbn [snd] in L1, L2. assert (X : x_offset = 1800000000) by reflexivity. assert (Y : y_offset = 900000000) by reflexivity.
  rewrite sub64_ok by lia. cbn [bind]. rewrite sub64_ok by lia. cbn [bind]. rewrite IH, !to_i32_small by lia. cbn [bind]. do 2 f_equal. destruct l as [lx ly]. cbn [fst snd]. f_equal; lia.
Qed.

Lemma combine_seq_in {A} (l : list A) : forall k a i, In (a, i) (combine l (seq k (length l))) -> nth_error l (i - k) = Some a /\ (k <= i)%nat.
Proof.
  induction l as [|x l IH]; intros k a i H; [destruct H|]. cbn [length seq combine] in H. destruct H as [H|H].
  - injection H as <- <-. rewrite Nat.sub_diag. split; [reflexivity|lia].
  - apply IH in H as [H1 H2]. replace (i - k)%nat with (S (i - S k)) by lia. split; [exact H1|lia].
Qed.
Lemma slots_nodup (l : list (Z * npos)) : map snd (combine (map fst l) (seq 0 (length l))) = seq 0 (length l).
Proof.
  generalize 0%nat. induction l as [|x l IH]; intros k; [reflexivity|]. cbn [map length seq combine snd]. f_equal. apply IH.
Qed.
Lemma in_combine_fst (l : list (Z * npos)) : forall k r i, In (r, i) (combine l (seq k (length l))) -> In (fst r, i) (combine (map fst l) (seq k (length l))).
Proof.
  induction l as [|x l IH]; intros k r i H; [destruct H|]. cbn [map length seq combine] in *. destruct H as [H|H]; [left; congruence|right; auto].
Qed.

(** the locations, given the answers *)
Definition relocate_with (sub : Z -> Z -> res Z) (p : option npos) (l : npos) : res npos :=
  let l := match p with Some p => (to_i32 (fst p), to_i32 (snd p)) | None => l end in
  do x <- sub (fst l) x_offset; do y <- sub (snd l) y_offset; Ok (x, y).
Definition relocate := relocate_with sub32.
Lemma update_with_spec sub srt ns idx dat refs : sorts query_ltb srt -> valid_stream (2 ^ 62) ns -> Z.of_nat (length ns) < 2 ^ 31 -> build_index ns = Ok (idx, dat) ->
  Forall (fun r => -2 ^ 63 < fst r < 2 ^ 63) refs ->
  update_with sub srt idx dat refs = map_res (fun r => relocate_with sub (node_of ns (fst r)) (snd r)) refs.
Proof.
  intros Hs HV Hn HB Hr. unfold update_with. destruct refs as [|r0 refs0]; [reflexivity|]. set (refs := r0 :: refs0) in *. clearbody refs. clear r0 refs0.
  destruct (batch_main srt ns idx dat Hs HV Hn HB (combine (map fst refs) (seq 0 (length refs)))) as (ws & W1 & W2 & W3 & W4).
  - apply Forall_forall. intros [id s] Hin. apply in_combine_l in Hin. cbn [fst]. apply in_map_iff in Hin as (r & <- & Hin). exact (proj1 (Forall_forall _ _) Hr r Hin).
  - rewrite slots_nodup. apply seq_NoDup.
  - rewrite W1. cbn [bind]. clear W1 W2 W3 Hr. set (f := fun r : Z * npos * nat => _).
    assert (Hf : forall r i, In (r, i) (combine refs (seq 0 (length refs))) -> f (r, i) = relocate_with sub (node_of ns (fst r)) (snd r)).
    { intros r i Hin. subst f. cbn beta. cbn [fst snd]. apply in_combine_fst in Hin as Hin2. destruct (W4 (fst r) i Hin2) as [-> _]. reflexivity. }
    clearbody f. clear W4. revert Hf. generalize 0%nat. induction refs as [|r refs IH]; intros k Hf; [reflexivity|]. cbn [length seq combine map_res] in *.
    rewrite Hf by now left. destruct (relocate_with sub (node_of ns (fst r)) (snd r)); [|reflexivity..]. cbn [bind]. rewrite (IH (S k)); [reflexivity|]. intros r' i' H'. apply Hf. now right.
Qed.

Lemma update_spec srt ns idx dat refs : sorts query_ltb srt -> valid_stream (2 ^ 62) ns -> Z.of_nat (length ns) < 2 ^ 31 -> build_index ns = Ok (idx, dat) ->
  Forall (fun r => -2 ^ 63 < fst r < 2 ^ 63) refs ->
  update_locations srt idx dat refs = map_res (fun r => relocate (node_of ns (fst r)) (snd r)) refs.
Proof. exact (update_with_spec sub32 srt ns idx dat refs). Qed.
Lemma update_main srt nodes idx dat refs : sorts query_ltb srt -> Forall (fun n => loc_ok (snd n)) nodes ->
  valid_stream (2 ^ 62) (map (fun n => (fst n, node_pos (snd n))) nodes) -> Z.of_nat (length nodes) < 2 ^ 31 ->
  build_index (map (fun n => (fst n, node_pos (snd n))) nodes) = Ok (idx, dat) ->
  forall locs, Forall2 (fun r l => -2 ^ 63 < fst r < 2 ^ 63 /\ node_of nodes (fst r) = Some l /\ fst l < 347483648) refs locs ->
  update_locations srt idx dat refs = Ok locs.
Proof.
  intros Hs HL HV Hn HB locs F. rewrite (update_spec srt _ idx dat refs Hs HV); [| |exact HB|].
  - clear HB. induction F as [|r l refs locs (I1 & I2 & I3) F IH]; [reflexivity|]. cbn [map_res]. rewrite IH. rewrite node_of_map, I2. cbn [option_map].
    destruct (node_of_in _ _ _ I2) as (i & Hin). pose proof (proj1 (Forall_forall _ _) HL _ Hin) as [L1 L2]. cbn [snd] in L1, L2.
    unfold relocate, relocate_with, node_pos, x_offset, y_offset. cbn [fst snd]. rewrite !to_i32_small by lia. unfold sub32.
    destruct (Z.leb_spec (- 2 ^ 31) (fst l + 1800000000 - 1800000000)); [|lia]. destruct (Z.ltb_spec (fst l + 1800000000 - 1800000000) (2 ^ 31)); [|lia].
    destruct (Z.leb_spec (- 2 ^ 31) (snd l + 900000000 - 900000000)); [|lia]. destruct (Z.ltb_spec (snd l + 900000000 - 900000000) (2 ^ 31)); [|lia].
    cbn [andb bind]. do 2 f_equal. destruct l as [lx ly]. cbn [fst snd]. f_equal; lia.
  - now rewrite map_length.
  - clear HB. induction F as [|r l refs locs (I1 & _) F IH]; constructor; assumption.
Qed.

Lemma update_wrapping srt nodes idx dat refs : sorts query_ltb srt -> Forall (fun n => loc_ok (snd n)) nodes ->
  valid_stream (2 ^ 62) (map (fun n => (fst n, node_pos (snd n))) nodes) -> Z.of_nat (length nodes) < 2 ^ 31 ->
  build_index (map (fun n => (fst n, node_pos (snd n))) nodes) = Ok (idx, dat) ->
  forall locs, Forall2 (fun r l => -2 ^ 63 < fst r < 2 ^ 63 /\ node_of nodes (fst r) = Some l) refs locs ->
  update_with wsub32 srt idx dat refs = Ok locs.
Proof.
  intros Hs HL HV Hn HB locs F. rewrite (update_with_spec wsub32 srt _ idx dat refs Hs HV); [| |exact HB|].
  - clear HB. induction F as [|r l refs locs (I1 & I2) F IH]; [reflexivity|]. cbn [map_res]. rewrite IH. rewrite node_of_map, I2. cbn [option_map].
    destruct (node_of_in _ _ _ I2) as (i & Hin). pose proof (proj1 (Forall_forall _ _) HL _ Hin) as [L1 L2]. cbn [snd] in L1, L2.
    unfold relocate_with, node_pos, x_offset, y_offset. cbn [fst snd]. unfold wsub32. cbn [bind]. destruct l as [x y]. cbn [fst snd] in *. unfold to_i32. do 2 f_equal.
    f_equal; (match goal with |- context [(if ?b then _ else _)] => destruct b eqn:?E1 end); (match goal with |- context [(if ?b then _ else _)] => destruct b eqn:?E2 end); lia.
  - now rewrite map_length.
  - clear HB. induction F as [|r l refs locs (I1 & _) F IH]; constructor; assumption.
Qed.

Lemma update_east srt l : sorts query_ltb srt -> loc_ok l -> 347483648 <= fst l ->
  exists idx dat, build_index [(1, node_pos l)] = Ok (idx, dat) /\ update_locations srt idx dat [(1, (undef_coord, undef_coord))] = UB.
Proof.
  intros Hs [L1 L2] He. assert (HV : valid_stream (2 ^ 62) [(1, node_pos l)]).
  { split; repeat constructor; unfold node_pos, x_offset, y_offset; cbn [fst snd]; lia. }
  destruct (build_spec (2 ^ 62) _ ltac:(lia) HV) as (idx & dat & e & ms & H1 & _). exists idx, dat. split; [exact H1|].
  rewrite (update_spec srt _ idx dat _ Hs HV); [|cbn [length]; lia|exact H1|repeat constructor; cbn [fst]; lia]. cbn [map_res fst snd]. unfold node_of. cbn [find fst]. rewrite Z.eqb_refl. cbn [option_map snd].
  unfold relocate, relocate_with, node_pos, x_offset. cbn [fst snd]. rewrite to_i32_big by lia. unfold sub32. destruct (Z.leb_spec (- 2 ^ 31) (fst l + 1800000000 - 2 ^ 32 - 1800000000)); [lia|]. reflexivity.
Qed.

Lemma update_missing srt ns idx dat id : sorts query_ltb srt -> valid_stream (2 ^ 62) ns -> Z.of_nat (length ns) < 2 ^ 31 ->
  build_index ns = Ok (idx, dat) -> -2 ^ 63 < id < 2 ^ 63 -> node_of ns id = None ->
  update_locations srt idx dat [(id, (undef_coord, undef_coord))] = Ok [(347483647, 1247483647)].
Proof.
  intros Hs HV Hn HB Hid HN. rewrite (update_spec srt ns idx dat _ Hs HV Hn HB); [|repeat constructor; cbn [fst]; lia]. cbn [map_res fst snd]. rewrite HN. reflexivity.
Qed.
