(** C34, C35: the feature inserter. *)
From Coq Require Import Permutation.
From Verif Require Import Base BaseProof ModelTile SpecTile ModelPackFile SpecPackFile ModelGeom ModelFeature ModelPack ModelTable ModelRender ModelPrepare
  ModelInserter SpecInserter ProofInserter ProofInserterInv ProofInserterTop.
Open Scope N_scope.

(** C34: any number of threads, any calls, any schedule, any thresholds: when the destructor
    has returned, the packs of every tile contain what they contained before and then each
    feature inserted for that tile exactly once, without the features of failed calls.  No
    other database entry was changed. *)
Theorem c34_persisted : forall z upper lower srt T0 s0 old n s,
  (forall l, Permutation (srt l) l) -> fitting z T0 s0 old -> lower <= upper -> z <= 20 ->
  ireach z upper lower srt T0 s0 n s -> destroyed s -> blen (pf_mem (i_file s)) < 2 ^ 64 ->
  Forall proper (i_calls s) ->
  (forall t, index_tile z t -> exists new, stored (i_table s) (i_file s) t (old t ++ new) /\
     Permutation (values_for z t (i_calls s)) (new ++ lost_values t s)) /\
  (forall k, (forall t, index_tile z t -> tile_to_key t 0 <> Ok k) -> table_get (i_table s) k = table_get T0 k).
Proof.
  intros z upper lower srt T0 s0 old n s HP (H1 & H2 & H3) HL HZ.
  exact (persisted z upper lower srt HP T0 s0 n H1 H2 old H3 HL HZ s).
Qed.
Print Assumptions c34_persisted.

(** C34: if all features lie in the world and have serializations of at least 32 bytes (and
    what can be in memory, [upper + n * M] bytes, is below 2^37) no call fails and nothing
    is lost *)
Theorem c34_no_failure : forall z upper lower srt T0 s0 old n M s,
  (forall l, Permutation (srt l) l) -> fitting z T0 s0 old -> lower <= upper -> z <= 20 ->
  upper + N.of_nat n * M < 2 ^ 37 ->
  ireach z upper lower srt T0 s0 n s -> Forall (insertable z M) (i_calls s) ->
  Forall (fun t => ~ failed t) (i_threads s) /\ forall t, lost_values t s = [].
Proof.
  intros z upper lower srt T0 s0 old n M s HP (H1 & H2 & H3) HL HZ HM HR HI. split.
  - exact (no_failure z upper lower srt HP T0 s0 n H1 H2 old H3 HL HZ M HM s HR HI).
  - intros t. exact (no_loss z upper lower srt HP T0 s0 n H1 H2 old H3 HL HZ M HM t s HR HI).
Qed.
Print Assumptions c34_no_failure.

(** C34: the size the inserter accounts for is exactly the number of bytes cached plus those
    just being put into a bucket *)
Theorem c34_accounting : forall z upper lower srt T0 s0 n s,
  (forall l, Permutation (srt l) l) -> table_sorted T0 -> pf_inv s0 -> lower <= upper -> z <= 20 ->
  ireach z upper lower srt T0 s0 n s -> Forall (fun t => ~ failed t) (i_threads s) ->
  i_cache s = cached_bytes s + underway s.
Proof.
  intros z upper lower srt T0 s0 n s HP H1 H2 HL HZ. exact (accounting z upper lower srt HP T0 s0 n H1 H2 HL HZ s).
Qed.
Print Assumptions c34_accounting.

(** C34: the cache never holds more than the threshold plus what the calls in progress
    added; when no call is in progress it is at or below the threshold *)
Theorem c34_bounded : forall z upper lower srt T0 s0 n s,
  (forall l, Permutation (srt l) l) -> table_sorted T0 -> pf_inv s0 -> lower <= upper -> z <= 20 ->
  ireach z upper lower srt T0 s0 n s ->
  i_cache s <= upper + counted_bytes s /\ (Forall idle (i_threads s) -> i_cache s <= upper).
Proof.
  intros z upper lower srt T0 s0 n s HP H1 H2 HL HZ HR. split.
  - exact (bounded z upper lower srt HP T0 s0 n H1 H2 HL s HR).
  - exact (bounded_idle z upper lower srt HP T0 s0 n H1 H2 HL HZ s HR).
Qed.
Print Assumptions c34_bounded.

(** C34: no deadlock: while a call is in progress some thread can go on ... *)
Theorem c34_no_deadlock : forall z upper lower srt T0 s0 n s,
  (forall l, Permutation (srt l) l) -> table_sorted T0 -> pf_inv s0 -> lower <= upper -> z <= 20 ->
  ireach z upper lower srt T0 s0 n s -> (exists t, In t (i_threads s) /\ ~ quiet t /\ th_pc t <> IDone) ->
  exists s', proceeds z upper lower srt s s'.
Proof.
  intros z upper lower srt T0 s0 n s HP H1 H2 HL HZ. exact (no_deadlock z upper lower srt HP T0 s0 n H1 H2 HL HZ s).
Qed.
Print Assumptions c34_no_deadlock.

(** ... and without new calls there is no infinite schedule: all calls end *)
Theorem c34_terminates : forall z upper lower srt, (forall l, Permutation (srt l) l) ->
  forall s, Acc (fun b a => proceeds z upper lower srt a b) s.
Proof. intros z upper lower srt HP. exact (calls_end z upper lower srt HP). Qed.
Print Assumptions c34_terminates.

(** C35: at every moment, so at every crash point, the committed database references only
    complete packs with correct checksums: the old features followed by some of the inserted
    ones, none twice *)
Theorem c35_committed : forall z upper lower srt T0 s0 old n s,
  (forall l, Permutation (srt l) l) -> fitting z T0 s0 old -> z <= 20 ->
  ireach z upper lower srt T0 s0 n s -> blen (pf_mem (i_file s)) < 2 ^ 64 ->
  Forall proper (i_calls s) ->
  (forall t, index_tile z t -> exists new rest, stored (i_table s) (i_file s) t (old t ++ new) /\
     Permutation (values_for z t (i_calls s)) (new ++ rest)) /\
  (forall k, (forall t, index_tile z t -> tile_to_key t 0 <> Ok k) -> table_get (i_table s) k = table_get T0 k).
Proof.
  intros z upper lower srt T0 s0 old n s HP (H1 & H2 & H3) HZ.
  exact (committed z upper lower srt HP T0 s0 n H1 H2 old H3 HZ s).
Qed.
Print Assumptions c35_committed.

(** C35: nor is it affected by a write that stops anywhere: with any bytes behind the end of the file
    as it was before the write, and any later end, all committed entries still read the same *)
Theorem c35_torn_write : forall z upper lower srt T0 s0 old n s f',
  (forall l, Permutation (srt l) l) -> fitting z T0 s0 old -> lower <= upper -> z <= 20 ->
  ireach z upper lower srt T0 s0 n s -> blen (pf_mem (i_file s)) < 2 ^ 64 ->
  pf_inv f' -> blen (pf_mem f') < 2 ^ 64 -> pf_size (i_file s) <= pf_size f' ->
  (forall i, (i < N.to_nat (pf_size (i_file s)))%nat -> nth_error (pf_mem f') i = nth_error (pf_mem (i_file s)) i) ->
  forall t vs, stored (i_table s) (i_file s) t vs -> stored (i_table s) f' t vs.
Proof.
  intros z upper lower srt T0 s0 old n s f' HP (H1 & H2 & H3) HL HZ HR HB HI HM HS HE t vs.
  exact (torn z upper lower srt HP T0 s0 n H1 H2 old H3 HL HZ s f' HR HI HM HS HE t vs HB).
Qed.
Print Assumptions c35_torn_write.

(** ** a run: two threads, one tile, thresholds 50 and 10 *)
Definition ex_a : feature := Feature 1 2 3 4 [] (GPoint [(5, 6)%Z]).
Definition ex_b : feature := Feature 7 2 3 4 [([65; 66; 67], [65; 66; 67; 68; 69])] (GLine [[(5, 6); (70000000, 800000000)]%Z]).
Definition ex_srt (l : list (N * nat)) : list (N * nat) := l.
(** a point in the middle of the world: 20 bytes *)
Definition ex_short : feature := Feature 1 2 3 4 [] (GPoint [(2147483647, 2147483647)%Z]).
Definition ex_val (f : feature) : bytes := match ser f with Ok v => v | _ => [] end.
Notation ex_reach := (ireach 0 50 10 ex_srt [] pf_empty 2).

Ltac step R c := eapply ir_step in R; [|c]; vm_compute in R.
Ltac call R g := eapply ir_step in R; [|eapply s_call with (t1 := []) (f := CFeature g); vm_compute; reflexivity]; vm_compute in R.
Ltac insert_one R :=
  step R ltac:(eapply s_count with (t1 := []));
  step R ltac:(eapply s_put with (b1 := []) (t1 := []); vm_compute; reflexivity);
  step R ltac:(eapply s_flush with (t1 := [])).
Ltac take_one R l :=
  step R ltac:(eapply s_check1_high with (t1 := l); reflexivity);
  step R ltac:(eapply s_lock with (t1 := l));
  step R ltac:(eapply s_check2_high with (t1 := l); reflexivity);
  step R ltac:(eapply s_scan with (t1 := l); reflexivity);
  step R ltac:(eapply s_scan_end with (t1 := l));
  step R ltac:(eapply s_more with (t1 := l); vm_compute; discriminate);
  step R ltac:(eapply s_take with (b1 := []) (t1 := l));
  step R ltac:(eapply s_all with (t1 := l));
  step R ltac:(eapply s_begin with (t1 := l)).

Example c34_ex : exists s, ex_reach s /\ destroyed s /\ i_calls s = [CFeature ex_a; CFeature ex_b; CValue (Tile 0 0 0) (ex_val ex_a)] /\
  values_for 0 (Tile 0 0 0) (i_calls s) = [ex_val ex_a; ex_val ex_b; ex_val ex_a] /\ pf_size (i_file s) = 160.
Proof.
  pose proof (ir_init 0 50 10 ex_srt [] pf_empty 2) as R. vm_compute in R.
  call R ex_a. insert_one R.
  step R ltac:(eapply s_check1_low with (t1 := []); vm_compute; discriminate).
  call R ex_b. insert_one R.
  take_one R ([] : list ithread).
  step R ltac:(eapply s_write with (t1 := []); vm_compute; reflexivity).
  step R ltac:(eapply s_commit with (t1 := [])).
  eapply ir_step in R; [|eapply s_call with (t1 := []) (f := CValue (Tile 0 0 0) (ex_val ex_a)); vm_compute; reflexivity]; vm_compute in R. insert_one R.
  step R ltac:(eapply s_check1_low with (t1 := []); vm_compute; discriminate).
  step R ltac:(eapply s_destroy; repeat constructor).
  take_one R [ITh IIdle 0; ITh IIdle 0].
  step R ltac:(eapply s_write with (t1 := [ITh IIdle 0; ITh IIdle 0]); vm_compute; reflexivity).
  step R ltac:(eapply s_commit with (t1 := [ITh IIdle 0; ITh IIdle 0])).
  eexists. split; [exact R|]. split; [eexists; split; [right; right; left; reflexivity|reflexivity]|]. repeat split.
Qed.
Example c34_ex_fitting : fitting 0 [] pf_empty (fun _ => []).
Proof.
  split; [constructor|]. split; [unfold pf_inv; cbn; lia|]. intros t (E & X & Y). exists 0. split; [|reflexivity].
  replace t with (Tile 0 0 0); [reflexivity|]. destruct t as [x y w]. cbn [tx ty tz] in *. subst w. f_equal; lia.
Qed.
Example c34_ex_insertable : Forall (insertable 0 1000) [CFeature ex_a; CFeature ex_b; CValue (Tile 0 0 0) (ex_val ex_a)] /\ 50 + N.of_nat 2 * 1000 < 2 ^ 37.
Proof.
  assert (H1 : forall ts, NoDup ts -> Forall (fun t => index_tile 0 t) ts -> (length ts <= 1)%nat).
  { intros ts HN HF. destruct ts as [|a [|b ts]]; cbn [length]; try lia. exfalso.
    apply Forall_cons_iff in HF as [Ha HF]. apply Forall_cons_iff in HF as [Hb _].
    assert (a = b). { destruct a as [x y w], b as [x' y' w'], Ha as (A1 & A2 & A3), Hb as (B1 & B2 & B3). cbn [tx ty tz] in *. f_equal; lia. }
    subst b. inversion HN as [|? ? Hn _]. apply Hn. left. reflexivity. }
  assert (H2 : forall f v, ser f = Ok v -> in_world (bounding_box (f_geom f)) -> 32 <= blen v <= 1000 -> insertable 0 1000 (CFeature f)).
  { intros f v Hs HW Hv. split; [exact HW|]. exists v. split; [exact Hs|]. split; [apply Hv|]. intros ts HN HF.
    assert (length ts <= 1)%nat; [|nia]. apply H1; [exact HN|]. eapply Forall_impl; [|exact HF]. cbn beta. tauto. }
  split; [|reflexivity].
  assert (HA : insertable 0 1000 (CFeature ex_a)). { apply H2 with (v := ex_val ex_a); [vm_compute; reflexivity|vm_compute; intuition discriminate|vm_compute; split; discriminate]. }
  assert (HB : insertable 0 1000 (CFeature ex_b)). { apply H2 with (v := ex_val ex_b); [vm_compute; reflexivity|vm_compute; intuition discriminate|vm_compute; split; discriminate]. }
  apply Forall_cons; [exact HA|]. apply Forall_cons; [exact HB|]. apply Forall_cons; [|apply Forall_nil]. repeat split; vm_compute; try reflexivity; discriminate.
Qed.

(** C34 is false for features with short serializations: one of them makes the flush that
    takes it fail, and everything that flush took is lost, here the valid feature [ex_b] too;
    the destructor then has nothing left to write *)
Theorem c34_short_feature_refuted : exists s, ex_reach s /\ destroyed s /\ i_calls s = map CFeature [ex_short; ex_b] /\
  Forall proper (i_calls s) /\
  values_for 0 (Tile 0 0 0) (i_calls s) = [ex_val ex_short; ex_val ex_b] /\
  i_table s = [] /\ cached_bytes s = 0 /\ stored (i_table s) (i_file s) (Tile 0 0 0) [].
Proof.
  pose proof (ir_init 0 50 10 ex_srt [] pf_empty 2) as R. vm_compute in R.
  call R ex_short. insert_one R.
  step R ltac:(eapply s_check1_low with (t1 := []); vm_compute; discriminate).
  call R ex_b. insert_one R.
  take_one R ([] : list ithread).
  step R ltac:(eapply s_write_fail with (t1 := []); vm_compute; reflexivity).
  step R ltac:(eapply s_destroy; repeat constructor).
  match type of R with ireach _ _ _ _ _ _ _ (Ist _ _ _ _ _ _ [?a; ?b; _] _ _) =>
    step R ltac:(eapply s_check1_low with (t1 := [a; b]); vm_compute; discriminate) end.
  eexists. split; [exact R|]. split; [eexists; split; [right; right; left; reflexivity|reflexivity]|]. split; [reflexivity|].
  split; [repeat (apply Forall_cons; [vm_compute; intuition discriminate|]); apply Forall_nil|]. repeat split. exists 0. split; reflexivity.
Qed.
Print Assumptions c34_short_feature_refuted.

(** C35 is false when the pack file has to be opened again after the crash: opening takes the
    zero bytes at the end of the file for unused space (see C08), and the last pack may end
    with one.  The committed entry then cannot be read any more. *)
Definition ex_zero : feature := Feature 117 2 3 4 [] (GPoint [(5, 6)%Z]).
Theorem c35_reopen_refuted : exists s, ireach 0 10 10 ex_srt [] pf_empty 1 s /\ i_calls s = [CFeature ex_zero] /\
  stored (i_table s) (i_file s) (Tile 0 0 0) [ex_val ex_zero] /\
  forall vs, ~ stored (i_table s) (pf_open (pf_mem (i_file s))) (Tile 0 0 0) vs.
Proof.
  pose proof (ir_init 0 10 10 ex_srt [] pf_empty 1) as R. vm_compute in R.
  call R ex_zero. insert_one R.
  take_one R ([] : list ithread).
  step R ltac:(eapply s_write with (t1 := []); vm_compute; reflexivity).
  step R ltac:(eapply s_commit with (t1 := [])).
  eexists. split; [exact R|]. split; [reflexivity|]. split.
  - exists 0. split; [reflexivity|].
    match goal with |- match ?a with _ => _ end => let b := eval vm_compute in a in change a with b end. cbn match.
    exists [Rec 0 47], [match pack_features [ex_val ex_zero] with Ok p => p | _ => [] end], [[ex_val ex_zero]].
    split; [vm_compute; reflexivity|]. split; [repeat constructor; vm_compute; reflexivity|]. split; [|reflexivity].
    constructor; [|constructor]. split; [vm_compute; reflexivity|]. eexists. vm_compute. reflexivity.
  - intros vs (k & Hk & H). injection Hk as <-.
    match type of H with match ?a with _ => _ end => let b := eval vm_compute in a in change a with b in H end. cbn match in H.
    destruct H as (rs & ps & fss & E & F & _). vm_compute in E. injection E as <-. inversion F as [|r p rs' ps' Hp _]. vm_compute in Hp. discriminate.
Qed.
Print Assumptions c35_reopen_refuted.
