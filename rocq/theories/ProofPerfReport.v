(** The lines of the report. *)
From Coq Require Import Permutation Sorting.Sorted.
From Coq Require Import List.
From Verif Require Import Base BaseProof ModelPerf SpecPerf.
Import ListNotations.
Open Scope N_scope.

(** rounding to 53 digits: within a part in 2^53 *)
Lemma round53_near p : 2 ^ 53 * round53 p <= p * (2 ^ 53 + 1) /\ p * (2 ^ 53 - 1) <= 2 ^ 53 * round53 p.
Proof.
  unfold round53. set (e := N.size p - 53). set (q := p / 2 ^ e). set (r := p mod 2 ^ e). set (up := (2 ^ e <? 2 * r) || ((2 * r =? 2 ^ e) && N.odd q)).
  assert (HP : p = 2 ^ e * q + r) by (apply N.div_mod'). assert (Hr : r < 2 ^ e) by (apply N.mod_lt, N.pow_nonzero; discriminate).
  destruct (N.eq_dec e 0) as [E|E].
  - rewrite E in *. change (2 ^ 0) with 1 in *. assert (r = 0) by lia. assert (Hu : up = false) by (unfold up; rewrite E, H; reflexivity). rewrite Hu. split; lia.
  - assert (HS : 2 ^ (e + 52) <= p).
    { assert (HZ : N.size p = e + 53) by (unfold e in *; lia). assert (Hp : p <> 0) by (intros ->; cbn in HZ; lia). rewrite N.size_log2 in HZ by assumption.
      replace (e + 52) with (N.log2 p) by lia. apply N.log2_spec. lia. }
    rewrite N.pow_add_r in HS. change (2 ^ 52) with 4503599627370496 in HS. change (2 ^ 53) with 9007199254740992. set (E2 := 2 ^ e) in *. clearbody E2 q r e.
    assert (Hup : if up then E2 <= 2 * r else 2 * r <= E2).
    { unfold up. destruct (N.ltb_spec E2 (2 * r)); cbn [orb]; [lia|]. destruct (N.eqb_spec (2 * r) E2); cbn [andb]; [destruct (N.odd q); lia | lia]. }
    destruct up; [replace ((q + 1) * E2) with (E2 * q + E2) by lia | rewrite (N.mul_comm q E2)]; set (x := E2 * q) in *; clearbody x; split; lia.
Qed.
Lemma index_near n : 0 < n -> n < 2 ^ 47 -> 20 * q95_index n <= 19 * n /\ 19 * n <= 20 * (q95_index n + 1) /\ q95_index n < n.
Proof.
  intros H0 H1. unfold q95_index. destruct (round53_near (n * 8556839292003942)) as [A B]. set (r := round53 (n * 8556839292003942)) in *. clearbody r.
  change (2 ^ 53) with 9007199254740992 in *. change (2 ^ 47) with 140737488355328 in H1.
  pose proof (N.div_mod r 9007199254740992 ltac:(discriminate)) as D. pose proof (N.mod_lt r 9007199254740992 ltac:(discriminate)) as M. set (i := r / 9007199254740992) in *. set (m := r mod 9007199254740992) in *. clearbody i m. subst r. split; [|split]; lia.
Qed.

(** sorted lists *)
Lemma filter_le {A} (p : A -> bool) l : (length (filter p l) <= length l)%nat.
Proof. induction l as [|a l IH]; cbn [filter length]; [lia|]. destruct (p a); cbn [length]; lia. Qed.
Lemma sorted_nth l i q : StronglySorted N.le l -> nth_error l i = Some q -> (i + 1 <= at_most q l)%nat /\ (smaller q l <= i)%nat.
Proof.
  intros HS. revert i. induction HS as [|a l HS IH HF]; intros i H; [now destruct i|]. unfold at_most, smaller in *. cbn [filter]. destruct i as [|i]; cbn [nth_error] in H.
  - injection H as ->. rewrite N.leb_refl, N.ltb_irrefl. split; [cbn [length]; lia|].
    assert (E : filter (fun v => v <? q) l = []); [|rewrite E; cbn; lia]. clear -HF. induction HF as [|b l Hb _ IH]; [reflexivity|]. cbn [filter]. destruct (N.ltb_spec b q); [lia | exact IH].
  - destruct (IH i H) as [H1 H2]. assert (Ha : a <= q) by (rewrite Forall_forall in HF; apply HF; eapply nth_error_In; exact H). replace (a <=? q) with true by lia. cbn [length]. split; [lia|]. destruct (a <? q); cbn [length]; lia.
Qed.
Lemma filter_perm {A} (p : A -> bool) l l' : Permutation l l' -> length (filter p l) = length (filter p l').
Proof. induction 1; cbn [filter]; repeat match goal with |- context [if p ?x then _ else _] => destruct (p x) end; cbn [length]; lia. Qed.
Lemma sorted_last l : StronglySorted N.le l -> l <> [] -> In (last l 0) l /\ Forall (fun v => v <= last l 0) l.
Proof.
  induction 1 as [|a l HS IH HF]; [congruence|]. intros _. destruct l as [|b l]; [cbn; split; [auto | repeat constructor; lia]|]. destruct IH as [H1 H2]; [discriminate|].
  change (last (a :: b :: l) 0) with (last (b :: l) 0). split; [right; assumption|]. constructor; [|assumption]. rewrite Forall_forall in HF. now apply HF.
Qed.
Lemma report_exact vs sorted : Permutation vs sorted -> StronglySorted N.le sorted -> N.of_nat (length vs) < 2 ^ 47 ->
  if (length vs =? 0)%nat then report_line sorted = Ok (0, None)
  else exists q m, report_line sorted = Ok (N.of_nat (length vs), Some (q, m)) /\ q95_of q vs /\ greatest m vs.
Proof.
  intros HP HS HL. pose proof (Permutation_length HP) as EL. destruct (Nat.eqb_spec (length vs) 0) as [E|E].
  - rewrite E in EL. destruct sorted; [reflexivity | discriminate].
  - destruct (index_near (N.of_nat (length vs)) ltac:(lia) HL) as (I1 & I2 & I3). rewrite EL in *. unfold report_line. set (i := q95_index (N.of_nat (length sorted))) in *.
    destruct (nth_error sorted (N.to_nat i)) as [q|] eqn:EN; [|apply nth_error_None in EN; lia].
    destruct sorted as [|s0 sorted]; [cbn in E; lia|]. exists q, (last (s0 :: sorted) 0). split; [reflexivity|].
    destruct (sorted_nth _ _ _ HS EN) as [N1 N2]. destruct (sorted_last _ HS ltac:(discriminate)) as [L1 L2]. split.
    + unfold q95_of. unfold at_most, smaller in *. rewrite !(filter_perm _ _ _ HP), EL. split; [apply (Permutation_in q (Permutation_sym HP)); eapply nth_error_In; exact EN|]. split; lia.
    + split; [apply (Permutation_in _ (Permutation_sym HP)); assumption|]. rewrite Forall_forall in *. intros v Hv. apply L2. now apply (Permutation_in _ HP).
Qed.
