From Verif Require Import Base BaseProof ModelHandlers.
Open Scope nat_scope.

Lemma slot_set_length l : forall i x, length (slot_set l i x) = length l.
Proof. induction l as [|y l IH]; intros [|i] x; cbn [slot_set length]; try reflexivity. now rewrite IH. Qed.
Lemma slot_set_same l : forall i x, i < length l -> nth_error (slot_set l i x) i = Some x.
Proof. induction l as [|y l IH]; intros [|i] x H; cbn [slot_set length nth_error] in *; try lia; [reflexivity | apply IH; lia]. Qed.
Lemma slot_set_other l : forall i k x, i <> k -> nth_error (slot_set l i x) k = nth_error l k.
Proof. induction l as [|y l IH]; intros [|i] [|k] x H; cbn [slot_set nth_error]; try reflexivity; [lia | apply IH; lia]. Qed.
Lemma hpc_same f t p : hpc_set f t p t = p.
Proof. unfold hpc_set. now rewrite Nat.eqb_refl. Qed.
Lemma hpc_other f t p u : u <> t -> hpc_set f t p u = f u.
Proof. intros H. unfold hpc_set. destruct (Nat.eqb_spec u t); [contradiction | reflexivity]. Qed.

(** the slot belongs to the thread *)
Definition owns (st : hst) (t s : nat) : Prop := nth_error (h_slots st) s = Some (Some t) \/ h_pc st t = HWrite s.
Definition absent (st : hst) (t : nat) : Prop := forall s, nth_error (h_slots st) s <> Some (Some t).
Record hinv (n : nat) (works : nat -> Prop) (st : hst) : Prop := {
  hi_len : length (h_slots st) = n;
  hi_free : forall s, h_next st <= s -> s < n -> nth_error (h_slots st) s = Some None;
  hi_own : forall s, s < h_next st -> s < n -> exists t, works t /\ owns st t s;
  hi_one : forall s s' t, owns st t s -> owns st t s' -> s = s';
  hi_excl : forall s t u, owns st t s -> owns st u s -> t = u;
  hi_write : forall t s, h_pc st t = HWrite s -> s < h_next st /\ s < n /\ nth_error (h_slots st) s = Some None;
  hi_slot : forall t s, nth_error (h_slots st) s = Some (Some t) -> s < h_next st;
  hi_scan : forall t i, h_pc st t = HScan i -> forall k, k < i -> nth_error (h_slots st) k <> Some (Some t);
  hi_take : forall t, h_pc st t = HTake \/ h_pc st t = HThrow \/ (exists s, h_pc st t = HWrite s) -> absent st t;
  hi_use : forall t s, h_pc st t = HUse s -> nth_error (h_slots st) s = Some (Some t);
  hi_throw : forall t, h_pc st t = HThrow -> works t /\ n <= h_next st }.
Lemma hinv0 n works : hinv n works (hst0 n).
Proof.
  assert (E : forall s x, nth_error (repeat (@None nat) n) s = Some x -> x = None) by (intros s x H; apply nth_error_In, repeat_spec in H; exact H).
  constructor; cbn [hst0 h_slots h_next h_pc]; try discriminate; try lia.
  - apply repeat_length.
  - intros s _ H. rewrite nth_error_repeat by exact H. reflexivity.
  - intros s s' t [H|H]; [apply E in H|]; discriminate.
  - intros s t u [H|H]; [apply E in H|]; discriminate.
  - intros t s H. apply E in H. discriminate.
  - intros t [H|[H|(s & H)]]; discriminate.
Qed.
(** only the program counter of [t] changes, and not to or from writing *)
Lemma hinv_move n works sl nx pc t p : hinv n works (Hst sl nx pc) -> (forall s, pc t <> HWrite s) -> (forall s, p <> HWrite s) ->
  (forall i, p = HScan i -> forall k, k < i -> nth_error sl k <> Some (Some t)) -> (p = HTake -> forall s, nth_error sl s <> Some (Some t)) -> p <> HThrow -> (forall s, p = HUse s -> nth_error sl s = Some (Some t)) ->
  hinv n works (Hst sl nx (hpc_set pc t p)).
Proof.
  intros [H1 H2 H3 H4 H5 H6 H7 H8 H9 H10 H11] P1 P2 P3 P4 P5 P6. unfold owns, absent in *. cbn [h_slots h_next h_pc] in *.
  assert (W : forall u s, hpc_set pc t p u = HWrite s <-> pc u = HWrite s).
  { intros u s. destruct (Nat.eq_dec u t) as [->|Hn]; [rewrite hpc_same; split; intros E; [now apply P2 in E | now apply P1 in E] | now rewrite hpc_other]. }
  constructor; unfold owns, absent; cbn [h_slots h_next h_pc]; try assumption.
  - intros s A B. destruct (H3 s A B) as (u & Hu & [Ho|Ho]); exists u; (split; [exact Hu|]); [left; exact Ho | right; now apply W].
  - intros s s' u A B. apply (H4 s s' u); rewrite <- W; assumption.
  - intros s u v A B. apply (H5 s u v); rewrite <- W; assumption.
  - intros u s E. apply W in E. exact (H6 u s E).
  - intros u i E. destruct (Nat.eq_dec u t) as [->|Hn]; [rewrite hpc_same in E; now apply P3 | rewrite hpc_other in E by exact Hn; now apply H8].
  - intros u E. destruct (Nat.eq_dec u t) as [->|Hn].
    + rewrite hpc_same in E. destruct E as [E|[E|(s & E)]]; [now apply P4 | contradiction | now apply P2 in E].
    + rewrite hpc_other in E by exact Hn. now apply H9.
  - intros u s E. destruct (Nat.eq_dec u t) as [->|Hn]; [rewrite hpc_same in E; now apply P6 | rewrite hpc_other in E by exact Hn; now apply H10].
  - intros u E. destruct (Nat.eq_dec u t) as [->|Hn]; [rewrite hpc_same in E; contradiction | rewrite hpc_other in E by exact Hn; now apply H11].
Qed.
Lemma hinv_step n works st st' : hinv n works st -> hstep works st st' -> hinv n works st'.
Proof.
  intros HI HS. destruct HS as [sl nx pc t Hw Hp|sl nx pc t i x Hw Hp Hx Hn|sl nx pc t i Hw Hp Hx|sl nx pc t i Hw Hp Hx|sl nx pc t Hw Hp Hl|sl nx pc t Hw Hp Hl|sl nx pc t s Hw Hp|sl nx pc t s Hw Hp].
  - apply hinv_move; try discriminate; try congruence. intros i E. injection E as <-. lia.
  - apply hinv_move; try discriminate; try congruence. intros j E k Hk. injection E as <-. destruct (Nat.eq_dec k i) as [->|Hne]; [congruence|]. apply (hi_scan _ _ _ HI t i Hp). lia.
  - apply hinv_move; try discriminate; try congruence.
  - apply hinv_move; try discriminate; try congruence. intros _ s E. apply (hi_scan _ _ _ HI t i Hp s); [|exact E]. apply nth_error_None in Hx. pose proof (proj1 (nth_error_Some sl s)). cbn [h_slots] in *. assert (s < length sl) by (apply H; congruence). lia.
  - pose proof HI as [H1 H2 H3 H4 H5 H6 H7 H8 H9 H10 H11]. unfold owns, absent in *. cbn [h_slots h_next h_pc] in *.
    assert (A : forall s, nth_error sl s <> Some (Some t)) by (apply H9; left; exact Hp).
    assert (B : nth_error sl nx = Some None) by (apply H2; lia).
    assert (W : forall u s, hpc_set pc t (HWrite nx) u = HWrite s -> u = t /\ s = nx \/ u <> t /\ pc u = HWrite s).
    { intros u s E. destruct (Nat.eq_dec u t) as [->|Hn]; [rewrite hpc_same in E; injection E as ->; left; split; reflexivity | rewrite hpc_other in E by exact Hn; right; split; assumption]. }
    constructor; unfold owns, absent; cbn [h_slots h_next h_pc]; try assumption.
    + intros s Hs. apply H2. lia.
    + intros s Hs Hs'. destruct (Nat.eq_dec s nx) as [->|Hne]; [exists t; split; [exact Hw | right; apply hpc_same]|]. destruct (H3 s ltac:(lia) Hs') as (u & Hu & Ho). exists u. split; [exact Hu|]. destruct Ho as [Ho|Ho]; [left; exact Ho|].
      right. rewrite hpc_other; [exact Ho | congruence].
    + intros s s' u [E|E] [E'|E'].
      * apply (H4 s s' u); left; assumption.
      * apply W in E'. destruct E' as [[-> ->]|[Hu E']]; [now apply A in E|]. apply (H4 s s' u); [left | right]; assumption.
      * apply W in E. destruct E as [[-> ->]|[Hu E]]; [now apply A in E'|]. apply (H4 s s' u); [right | left]; assumption.
      * congruence.
    + assert (K : forall s u, nth_error sl s = Some (Some u) -> s < nx) by (intros s u E; now apply (H7 u)).
      intros s u v [E|E] [E'|E'].
      * congruence.
      * apply W in E'. destruct E' as [[-> ->]|[Hu E']]; [apply K in E; lia|]. apply (H5 s u v); [left | right]; assumption.
      * apply W in E. destruct E as [[-> ->]|[Hu E]]; [apply K in E'; lia|]. apply (H5 s u v); [right | left]; assumption.
      * apply W in E. apply W in E'. destruct E as [[-> ->]|[Hu E]], E' as [[-> E'']|[Hv E']]; try reflexivity; [apply H6 in E'; lia | subst s; apply H6 in E; lia|]. apply (H5 s u v); right; assumption.
    + intros u s E. apply W in E. destruct E as [[-> ->]|[Hu E]]; [split; [lia | split; [lia | exact B]]|]. destruct (H6 u s E) as (C1 & C2 & C3). split; [lia | split; [exact C2 | exact C3]].
    + intros u s E. apply H7 in E. lia.
    + intros u i E. destruct (Nat.eq_dec u t) as [->|Hn]; [rewrite hpc_same in E; discriminate | rewrite hpc_other in E by exact Hn; now apply H8].
    + intros u E. destruct (Nat.eq_dec u t) as [->|Hn]; [exact A | rewrite hpc_other in E by exact Hn; now apply H9].
    + intros u s E. destruct (Nat.eq_dec u t) as [->|Hn]; [rewrite hpc_same in E; discriminate | rewrite hpc_other in E by exact Hn; now apply H10].
    + intros u E. destruct (Nat.eq_dec u t) as [->|Hn]; [rewrite hpc_same in E; discriminate | rewrite hpc_other in E by exact Hn]. apply H11 in E. split; [apply E | lia].
  - pose proof HI as [H1 H2 H3 H4 H5 H6 H7 H8 H9 H10 H11]. unfold owns, absent in *. cbn [h_slots h_next h_pc] in *.
    assert (A : forall s, nth_error sl s <> Some (Some t)) by (apply H9; left; exact Hp).
    assert (W : forall u s, hpc_set pc t HThrow u = HWrite s <-> pc u = HWrite s).
    { intros u s. destruct (Nat.eq_dec u t) as [->|Hn]; [rewrite hpc_same; split; intros E; congruence | now rewrite hpc_other]. }
    constructor; unfold owns, absent; cbn [h_slots h_next h_pc]; try assumption.
    + intros s Hs. apply H2. lia.
    + intros s Hs Hs'. destruct (H3 s ltac:(lia) Hs') as (u & Hu & [Ho|Ho]); exists u; (split; [exact Hu|]); [left; exact Ho | right; now apply W].
    + intros s s' u B C. apply (H4 s s' u); rewrite <- W; assumption.
    + intros s u v B C. apply (H5 s u v); rewrite <- W; assumption.
    + intros u s E. apply W in E. destruct (H6 u s E) as (C1 & C2 & C3). split; [lia | split; [exact C2 | exact C3]].
    + intros u s E. apply H7 in E. lia.
    + intros u i E. destruct (Nat.eq_dec u t) as [->|Hn]; [rewrite hpc_same in E; discriminate | rewrite hpc_other in E by exact Hn; now apply H8].
    + intros u E. destruct (Nat.eq_dec u t) as [->|Hn]; [exact A | rewrite hpc_other in E by exact Hn; now apply H9].
    + intros u s E. destruct (Nat.eq_dec u t) as [->|Hn]; [rewrite hpc_same in E; discriminate | rewrite hpc_other in E by exact Hn; now apply H10].
    + intros u E. destruct (Nat.eq_dec u t) as [->|Hn]; [split; [exact Hw | lia] | rewrite hpc_other in E by exact Hn]. apply H11 in E. split; [apply E | lia].
  - pose proof HI as [H1 H2 H3 H4 H5 H6 H7 H8 H9 H10 H11]. unfold owns, absent in *. cbn [h_slots h_next h_pc] in *.
    assert (A : forall s, nth_error sl s <> Some (Some t)) by (apply H9; right; right; exists s; exact Hp). destruct (H6 _ _ Hp) as (B1 & B2 & B3).
    set (sl' := slot_set sl s (Some t)). set (pc' := hpc_set pc t (HUse s)).
    assert (N1 : nth_error sl' s = Some (Some t)) by (apply slot_set_same; lia).
    assert (N2 : forall k, k <> s -> nth_error sl' k = nth_error sl k) by (intros k Hk; apply slot_set_other; congruence).
    assert (V : forall u k, nth_error sl' k = Some (Some u) -> u = t /\ k = s \/ u <> t /\ nth_error sl k = Some (Some u)).
    { intros u k E. destruct (Nat.eq_dec k s) as [->|Hk]; [left; split; congruence|]. rewrite N2 in E by exact Hk. right. split; [intros ->; now apply A in E | exact E]. }
    assert (V' : forall u k, nth_error sl k = Some (Some u) -> nth_error sl' k = Some (Some u)) by (intros u k E; rewrite N2; [exact E | congruence]).
    assert (O : forall u k, nth_error sl' k = Some (Some u) \/ pc' u = HWrite k -> nth_error sl k = Some (Some u) \/ pc u = HWrite k).
    { intros u k [E|E]; [apply V in E; destruct E as [[-> ->]|[_ E]]; [right; exact Hp | left; exact E]|]. unfold pc' in E. destruct (Nat.eq_dec u t) as [->|Hn]; [rewrite hpc_same in E; discriminate | rewrite hpc_other in E by exact Hn; right; exact E]. }
    constructor; unfold owns, absent; cbn [h_slots h_next h_pc].
    + unfold sl'. now rewrite slot_set_length.
    + intros k Hk Hk'. rewrite N2 by lia. now apply H2.
    + intros k Hk Hk'. destruct (H3 k Hk Hk') as (u & Hu & [Ho|Ho]); exists u; (split; [exact Hu|]); [left; now apply V'|]. destruct (Nat.eq_dec u t) as [->|Hn]; [left; rewrite Hp in Ho; injection Ho as <-; exact N1 | right; unfold pc'; now rewrite hpc_other].
    + intros k k' u C D. apply (H4 k k' u); now apply O.
    + intros k u v C D. apply (H5 k u v); now apply O.
    + intros u k E. unfold pc' in E. destruct (Nat.eq_dec u t) as [->|Hn]; [rewrite hpc_same in E; discriminate | rewrite hpc_other in E by exact Hn]. destruct (H6 _ _ E) as (C1 & C2 & C3). split; [exact C1|]. split; [exact C2|].
      rewrite N2; [exact C3|]. intros ->. apply Hn. apply (H5 s u t); right; assumption.
    + intros u k E. apply V in E. destruct E as [[-> ->]|[_ E]]; [exact B1 | now apply (H7 u)].
    + intros u i E k Hk Hc. unfold pc' in E. destruct (Nat.eq_dec u t) as [->|Hn]; [rewrite hpc_same in E; discriminate | rewrite hpc_other in E by exact Hn]. apply V in Hc. destruct Hc as [[Hc _]|[_ Hc]]; [contradiction|]. now apply (H8 u i E k Hk).
    + intros u E k Hc. unfold pc' in E. destruct (Nat.eq_dec u t) as [->|Hn]; [rewrite hpc_same in E; destruct E as [E|[E|(s' & E)]]; discriminate | rewrite hpc_other in E by exact Hn]. apply V in Hc. destruct Hc as [[Hc _]|[_ Hc]]; [contradiction|]. now apply (H9 u E k).
    + intros u k E. unfold pc' in E. destruct (Nat.eq_dec u t) as [->|Hn]; [rewrite hpc_same in E; injection E as <-; exact N1 | rewrite hpc_other in E by exact Hn]. apply V'. now apply H10.
    + intros u E. unfold pc' in E. destruct (Nat.eq_dec u t) as [->|Hn]; [rewrite hpc_same in E; discriminate | rewrite hpc_other in E by exact Hn]. exact (H11 u E).
  - apply hinv_move; try discriminate; try congruence.
Qed.
Lemma hinv_reach n works st : hreach n works st -> hinv n works st.
Proof. unfold hreach. intros H. remember (hst0 n) as st0. induction H as [|st0 st1 st2 H IH HS]; subst; [apply hinv0 | eapply hinv_step; [now apply IH | exact HS]]. Qed.
Lemma kept works st st' t s : hstep works st st' -> length (h_slots st') = length (h_slots st) /\ (forall n, hinv n works st -> nth_error (h_slots st) s = Some (Some t) -> nth_error (h_slots st') s = Some (Some t)).
Proof.
  intros HS. destruct HS; cbn [h_slots]; (split; [try reflexivity | intros n HI E; try exact E]).
  - apply slot_set_length.
  - destruct (hi_write _ _ _ HI _ _ H0) as (_ & _ & C). cbn [h_slots] in *. rewrite slot_set_other; [exact E | congruence].
Qed.
Lemma kept_steps n works st st' t s : hinv n works st -> hsteps works st st' -> nth_error (h_slots st) s = Some (Some t) -> nth_error (h_slots st') s = Some (Some t) /\ hinv n works st'.
Proof. intros HI H E. induction H as [st|st st1 st2 H IH HS]; [split; assumption|]. destruct (IH HI E) as [A B]. split; [now apply (proj2 (kept _ _ _ t s HS) n) | eapply hinv_step; eassumption]. Qed.

(** the owners of the slots *)
Lemma owners n works st m : hinv n works st -> m <= h_next st -> m <= n -> exists us, length us = m /\ NoDup us /\ Forall works us /\ forall u, In u us -> exists s, s < m /\ owns st u s.
Proof.
  intros HI. induction m as [|m IH]; intros H1 H2; [exists []; repeat split; [constructor | constructor | intros u []]|].
  destruct IH as (us & L & N & F & O); [lia | lia|]. destruct (hi_own _ _ _ HI m) as (t & Ht & Ho); [lia | lia|]. exists (t :: us). split; [cbn [length]; lia|]. split; [|split; [constructor; assumption|]].
  - constructor; [|exact N]. intros Hi. destruct (O t Hi) as (s & Hs & Ho'). pose proof (hi_one _ _ _ HI _ _ _ Ho Ho'). lia.
  - intros u [<-|Hi]; [exists m; split; [lia | exact Ho]|]. destruct (O u Hi) as (s & Hs & Ho'). exists s. split; [lia | exact Ho'].
Qed.
Lemma throw_many n works st t : hreach n works st -> h_pc st t = HThrow -> exists us, length us = n /\ NoDup us /\ Forall works us /\ ~ In t us.
Proof.
  intros HR Ht. apply hinv_reach in HR. destruct (hi_throw _ _ _ HR t Ht) as [Hw Hn]. destruct (owners n works st n HR Hn (le_n n)) as (us & L & N & F & O). exists us. split; [exact L|]. split; [exact N|]. split; [exact F|].
  intros Hi. destruct (O t Hi) as (s & _ & [Ho|Ho]); [|congruence]. apply (hi_take _ _ _ HR t (or_intror (or_introl Ht)) s Ho).
Qed.
Lemma race : exists st t u s, hreach 2 (fun u => In u [0; 1]) st /\ t <> u /\ h_pc st t = HScan s /\ h_pc st u = HWrite s.
Proof.
  assert (R : hreach 2 (fun u => In u [0; 1]) (hst0 2)) by apply hs_refl. unfold hst0 in R. cbn [repeat] in R.
  eapply hs_next in R; [|eapply (hs_call _ _ _ _ 0); [cbn; tauto | reflexivity]].
  eapply hs_next in R; [|eapply (hs_call _ _ _ _ 1); [cbn; tauto | reflexivity]].
  eapply hs_next in R; [|eapply (hs_other _ _ _ _ 1 0); [cbn; tauto | reflexivity | reflexivity | discriminate]].
  eapply hs_next in R; [|eapply (hs_other _ _ _ _ 1 1); [cbn; tauto | reflexivity | reflexivity | discriminate]].
  eapply hs_next in R; [|eapply (hs_end _ _ _ _ 1 2); [cbn; tauto | reflexivity | reflexivity]].
  eapply hs_next in R; [|eapply (hs_take _ _ _ _ 1); [cbn; tauto | reflexivity | cbn; lia]].
  eexists. exists 0, 1, 0. split; [exact R|]. split; [discriminate|]. split; reflexivity.
Qed.
