(** The statistics and the size of the node index. *)
From Verif Require Import Base BaseProof ModelCodec ProofCodec ModelNodeIdx SpecNodeIdx ProofNodeIdx ModelNodeStats SpecNodeStats.
From Coq Require Import List.
Import ListNotations.
Open Scope Z_scope.

(** ** sizes of numbers *)
Lemma varint_size_f f : forall v, (v < 2 ^ (7 * N.of_nat f))%N -> (1 <= f)%nat -> varint_size f v = N.of_nat (length (varint_enc_f f v)).
Proof.
  induction f as [|f IH]; intros v H Hf; [lia|]. cbn [varint_size varint_enc_f].
  destruct (N.ltb_spec v 128) as [L|L]; [reflexivity|]. cbn [length]. rewrite IH.
  - lia.
  - replace (7 * N.of_nat (S f))%N with (7 + 7 * N.of_nat f)%N in H by lia. rewrite N.pow_add_r in H.
    apply N.div_lt_upper_bound; [discriminate|]. exact H.
  - destruct f; [|lia]. change (2 ^ (7 * N.of_nat 1))%N with 128%N in H. lia.
Qed.
Lemma varint_size_len v : (v < 2 ^ 64)%N -> varint_size 10 v = N.of_nat (length (varint_enc v)).
Proof. intros H. apply varint_size_f; [|lia]. eapply N.lt_trans; [exact H|]. reflexivity. Qed.
Lemma diff_size_spec a b : 0 <= a < 2 ^ 32 -> 0 <= b < 2 ^ 32 ->
  varint_size 10 (zigzag (b - a)) = N.of_nat (diff_size (b - a)) /\ (1 <= diff_size (b - a) <= 5)%nat.
Proof.
  intros Ha Hb. assert (Z33 : (zigzag (b - a) < 2 ^ 33)%N).
  { unfold zigzag. change (2 ^ 33)%N with (Z.to_N (2 ^ 33)). destruct (Z.leb_spec 0 (b - a)); lia. }
  split.
  - unfold diff_size, diff_bytes. apply varint_size_len. eapply N.lt_trans; [exact Z33|]. reflexivity.
  - unfold diff_size, diff_bytes. split; [apply varint_len_pos|]. unfold varint_enc. apply (varint_len_bound 4). eapply N.lt_trans; [exact Z33|]. reflexivity.
Qed.

(** ** counters *)
Definition counters (f : nat -> nat) : list N := map (fun i => N.of_nat (f i)) (seq 0 7).
Lemma counters_ext f g : (forall i, f i = g i) -> counters f = counters g.
Proof. intros H. unfold counters. apply map_ext. intros i. now rewrite H. Qed.
Lemma bump_spec f k : (k < 7)%nat -> bump k (counters f) = Ok (counters (fun i => f i + if (k =? i)%nat then 1 else 0)%nat).
Proof.
  intros H. unfold counters. cbn [seq map].
  do 7 (destruct k as [|k]; [cbn [bump bind Nat.eqb]; repeat (f_equal; try lia)|]). lia.
Qed.

Definition size_count (i : nat) (ds : list (Z * Z)) : nat :=
  length (filter (fun d => (diff_size d =? i)%nat) (flat_map (fun d => [fst d; snd d]) ds)).
Lemma size_count_cons i d ds : size_count i (d :: ds) = ((if (diff_size (fst d) =? i)%nat then 1 else 0) + ((if (diff_size (snd d) =? i)%nat then 1 else 0) + size_count i ds))%nat.
Proof. unfold size_count. cbn [flat_map app filter]. destruct (diff_size (fst d) =? i)%nat, (diff_size (snd d) =? i)%nat; reflexivity. Qed.
Lemma size_count_app i a b : size_count i (a ++ b) = (size_count i a + size_count i b)%nat.
Proof. unfold size_count. now rewrite flat_map_app, filter_app, app_length. Qed.

Lemma span_more_st_spec cs : forall x y f, pos_ok (x, y) -> Forall pos_ok cs ->
  span_more_st x y cs (counters f) =
    Ok (span_more x y cs, counters (fun i => f i + size_count i (differences (x, y) (firstn (span_more x y cs) cs)))%nat).
Proof.
  induction cs as [|[x' y'] cs IH]; intros x y f [Hx Hy] F; cbn [span_more_st span_more].
  - cbn [firstn differences]. do 2 f_equal. apply counters_ext. intros i. unfold size_count. cbn. lia.
  - inversion F as [|? ? [F1 F2] F3]. subst. cbn [fst snd] in *.
    destruct (diff_size_spec x x' Hx F1) as [Ex Bx]. destruct (diff_size_spec y y' Hy F2) as [Ey By]. rewrite Ex, Ey.
    destruct (N.ltb_spec 9 (N.of_nat (diff_size (x' - x)) + N.of_nat (diff_size (y' - y)))) as [L|L].
    + cbn [firstn differences]. do 2 f_equal. apply counters_ext. intros i. unfold size_count. cbn. lia.
    + assert (Cs : forall n, (1 <= n <= 5)%nat -> char_slot (N.of_nat n) = n).
      { intros n Hn. unfold char_slot. destruct (N.ltb_spec (N.of_nat n) 10); lia. }
      rewrite !Cs by assumption. rewrite bump_spec by lia. cbn [bind]. rewrite bump_spec by lia. cbn [bind].
      rewrite IH; [|split; assumption|assumption]. cbn [bind firstn differences]. do 2 f_equal. apply counters_ext. intros i.
      rewrite size_count_cons. cbn [fst snd]. lia.
Qed.

Lemma span_more_fit cs : forall x y d, pos_ok (x, y) -> Forall pos_ok cs ->
  In d (differences (x, y) (firstn (span_more x y cs) cs)) -> (pair_size d <= 9)%nat.
Proof.
  induction cs as [|[x' y'] cs IH]; intros x y d [Hx Hy] F; cbn [span_more]; [intros []|].
  inversion F as [|? ? [F1 F2] F3]. subst. cbn [fst snd] in *.
  destruct (diff_size_spec x x' Hx F1) as [Ex Bx]. destruct (diff_size_spec y y' Hy F2) as [Ey By]. rewrite Ex, Ey.
  destruct (N.ltb_spec 9 (N.of_nat (diff_size (x' - x)) + N.of_nat (diff_size (y' - y)))) as [L|L]; [intros []|].
  cbn [firstn differences fst snd]. intros [<-|H]; [unfold pair_size; cbn [fst snd]; lia|]. apply (IH x' y'); [split; assumption|assumption|exact H].
Qed.
Lemma last_cons_ {A} (l : list A) : forall a d, last (a :: l) d = last l a.
Proof. induction l as [|b l IH]; intros a d; [reflexivity|]. change (last (a :: b :: l) d) with (last (b :: l) d). rewrite IH. symmetry. apply IH. Qed.
Lemma span_more_stop cs : forall x y q r, pos_ok (x, y) -> Forall pos_ok cs -> skipn (span_more x y cs) cs = q :: r ->
  (9 < pair_size (fst q - fst (last (firstn (span_more x y cs) cs) (x, y)), snd q - snd (last (firstn (span_more x y cs) cs) (x, y)))%Z)%nat.
Proof.
  induction cs as [|[x' y'] cs IH]; intros x y q r [Hx Hy] F; cbn [span_more]; [discriminate|].
  inversion F as [|? ? [F1 F2] F3]. subst. cbn [fst snd] in *.
  destruct (diff_size_spec x x' Hx F1) as [Ex Bx]. destruct (diff_size_spec y y' Hy F2) as [Ey By]. rewrite Ex, Ey.
  destruct (N.ltb_spec 9 (N.of_nat (diff_size (x' - x)) + N.of_nat (diff_size (y' - y)))) as [L|L].
  - cbn [skipn firstn last]. intros [= <- <-]. cbn [fst snd]. unfold pair_size. cbn [fst snd]. lia.
  - cbn [skipn firstn]. intros H. specialize (IH x' y' q r (conj F1 F2) F3 H).
    replace (last ((x', y') :: firstn (span_more x' y' cs) cs) (x, y)) with (last (firstn (span_more x' y' cs) cs) (x', y')); [exact IH|].
    symmetry. apply last_cons_.
Qed.
Lemma span_deltas_spec cs : forall x y, span_deltas x y cs = flat_map (fun d => diff_bytes (fst d) ++ diff_bytes (snd d)) (differences (x, y) cs).
Proof. induction cs as [|[x' y'] cs IH]; intros x y; [reflexivity|]. cbn [span_deltas differences flat_map fst snd]. now rewrite IH, app_assoc. Qed.
Lemma fixed_enc_spec v : 0 <= v < 2 ^ 32 -> fixed_enc v = le_bytes 4 (Z.to_N v).
Proof. intros H. unfold fixed_enc, to_u32. now rewrite Z.mod_small. Qed.

(** ** runs next to each other *)
Definition apart (s t : segment) : Prop :=
  match s, t with
  | Run p ps, Run q _ => (9 < pair_size (fst q - fst (last ps p), snd q - snd (last ps p))%Z)%nat
  | _, _ => True
  end.
Fixpoint adj (l : list segment) : Prop :=
  match l with
  | s :: (t :: _) as l' => apart s t /\ adj l'
  | _ => True
  end.
Lemma adj_split l : adj l -> forall a s t b, l = a ++ s :: t :: b -> apart s t.
Proof.
  induction l as [|u l IH]; intros H a s t b E; [destruct a; discriminate|]. destruct a as [|a0 a].
  - injection E as -> ->. exact (proj1 H).
  - injection E as -> ->. apply (IH ltac:(destruct (a ++ s :: t :: b); [exact I|exact (proj2 H)]) a s t b eq_refl).
Qed.
Lemma adj_app a b : adj a -> adj b -> (forall s t, In s a -> In t b -> is_run s = true -> is_run t = true -> (exists a', a = a' ++ [s]) -> False) -> adj (a ++ b).
Proof.
  induction a as [|s a IH]; intros Ha Hb H; [exact Hb|]. destruct a as [|s2 a].
  - cbn [app]. destruct b as [|t b]; [exact I|]. split; [|exact Hb].
    destruct s as [n|p ps]; [exact I|]. destruct t as [m|q qs]; [exact I|]. exfalso.
    apply (H (Run p ps) (Run q qs)); [left; reflexivity|left; reflexivity|reflexivity|reflexivity|exists []; reflexivity].
  - cbn [app]. destruct Ha as [H1 H2]. split; [exact H1|]. apply (IH H2 Hb). intros s' t I1 I2 R1 R2 [a' E]. apply (H s' t); [right; exact I1|exact I2|exact R1|exact R2|].
    exists (s :: a'). cbn [app]. now rewrite <- E.
Qed.

Lemma size_le cs : forall p, (forall d, In d (differences p cs) -> (pair_size d <= 9)%nat) ->
  (length (flat_map (fun d => diff_bytes (fst d) ++ diff_bytes (snd d)) (differences p cs)) <= 9 * length cs)%nat.
Proof.
  induction cs as [|q cs IH]; intros p H; cbn [differences flat_map length]; [lia|]. rewrite !app_length. cbn [fst snd].
  pose proof (H _ (or_introl eq_refl)) as H1. unfold pair_size, diff_size in H1. cbn [fst snd] in H1.
  specialize (IH q (fun d Hd => H d (or_intror Hd))). lia.
Qed.
Lemma header_len_f f : forall v, (64 * N.of_nat (length (varint_enc_f (S f) v)) <= 64 + v / 2)%N.
Proof.
  induction f as [|f IH]; intros v.
  - cbn [varint_enc_f]. destruct (v <? 128)%N; cbn [length]; lia.
  - assert (E : varint_enc_f (S (S f)) v = if (v <? 128)%N then [v] else (v mod 128 + 128)%N :: varint_enc_f (S f) (v / 128)) by reflexivity.
    rewrite E. clear E. destruct (N.ltb_spec v 128) as [L|L]; [cbn [length]; lia|]. cbn [length]. specialize (IH (v / 128)%N).
    assert (64 + (v / 128) / 2 <= v / 2)%N; [|lia].
    assert (E : (v / 128 / 2 = v / 256)%N) by (rewrite N.div_div by lia; reflexivity). rewrite E.
    pose proof (N.div_mod v 256 ltac:(lia)). pose proof (N.mod_lt v 256 ltac:(lia)).
    pose proof (N.div_mod v 2 ltac:(lia)). pose proof (N.mod_lt v 2 ltac:(lia)). lia.
Qed.
Lemma header_len n : (64 * length (varint_enc (2 * N.of_nat n)) <= 64 + n)%nat.
Proof.
  pose proof (header_len_f 9 (2 * N.of_nat n)) as H. replace (2 * N.of_nat n / 2)%N with (N.of_nat n) in H by (rewrite N.mul_comm, N.div_mul; lia).
  unfold varint_enc. lia.
Qed.

Definition run_count (segs : list segment) : nat := length (filter is_run segs).
Definition cum_of (f : N -> nat) : list N := map (fun l => N.of_nat (f l)) cum_limits.
Lemma count_span_spec size f : count_span size (cum_of f) = cum_of (fun l => f l + if (size <=? l)%N then 1 else 0)%nat.
Proof. unfold count_span, cum_of, cum_limits. cbn [map combine fst snd].
  do 5 (apply f_equal2; [match goal with |- context [(size <=? ?l)%N] => destruct (size <=? l)%N; lia end|]). reflexivity. Qed.
Lemma cum_ext f g : (forall l, f l = g l) -> cum_of f = cum_of g.
Proof. intros H. unfold cum_of. apply map_ext. intros l. now rewrite H. Qed.
Lemma runs_up_app n a b : runs_up_to n (a ++ b) = (runs_up_to n a + runs_up_to n b)%nat.
Proof. unfold runs_up_to. now rewrite filter_app, app_length. Qed.
Lemma diffs_of_app i a b : diffs_of_size i (a ++ b) = (diffs_of_size i a + diffs_of_size i b)%nat.
Proof. unfold diffs_of_size. now rewrite !flat_map_app, filter_app, app_length. Qed.
Lemma diffs_of_count i a : diffs_of_size i a = size_count i (flat_map seg_diffs a).
Proof. reflexivity. Qed.
Lemma runs_up_cons n s a : runs_up_to n (s :: a) = ((if is_run s && (N.of_nat (length (seg_nodes s)) <=? n)%N then 1 else 0) + runs_up_to n a)%nat.
Proof. unfold runs_up_to. cbn [filter]. destruct (is_run s && _); reflexivity. Qed.
Lemma run_count_app a b : run_count (a ++ b) = (run_count a + run_count b)%nat.
Proof. unfold run_count. now rewrite filter_app, app_length. Qed.

(** ** one block of nodes with consecutive ids *)
Lemma coord_spans_st_spec fuel : forall cs nd sp f g, (length cs <= fuel)%nat -> Forall pos_ok cs ->
  exists rs, coord_spans fuel cs = Ok (flat_map seg_bytes rs) /\
    coord_spans_st fuel cs (NStats nd sp (counters f) (cum_of g)) =
      Ok (flat_map seg_bytes rs, NStats nd (sp + N.of_nat (run_count rs)) (counters (fun i => f i + diffs_of_size i rs)%nat) (cum_of (fun l => g l + runs_up_to l rs)%nat)) /\
    flat_map seg_nodes rs = cs /\ Forall (fun s => is_run s = true) rs /\ adj rs /\
    (forall s d, In s rs -> In d (seg_diffs s) -> (pair_size d <= 9)%nat) /\
    (64 * length (flat_map seg_bytes rs) <= 577 * length cs)%nat.
Proof.
  induction fuel as [|fuel IH]; intros cs nd sp f g Hf F.
  - destruct cs as [|[x y] cs]; [|cbn [length] in Hf; lia]. exists []. split; [reflexivity|]. split.
    { cbn [coord_spans_st flat_map]. do 3 f_equal; [cbn; lia|apply counters_ext; intros i; cbn; lia|apply cum_ext; intros l; cbn; lia]. }
    split; [reflexivity|]. split; [constructor|]. split; [exact I|]. split; [intros s d []|cbn; lia].
  - destruct cs as [|[x y] tl].
    { exists []. split; [reflexivity|]. split.
      { cbn [coord_spans_st flat_map]. do 3 f_equal; [cbn; lia|apply counters_ext; intros i; cbn; lia|apply cum_ext; intros l; cbn; lia]. }
      split; [reflexivity|]. split; [constructor|]. split; [exact I|]. split; [intros s d []|cbn; lia]. }
    inversion F as [|? ? F1 F2]. subst. cbn [coord_spans coord_spans_st s_chars s_cum s_nodes s_spans].
    rewrite (span_more_st_spec tl x y f F1 F2). cbn [bind]. rewrite count_span_spec.
    pose proof (span_more_le x y tl) as Hn. pose proof (span_more_stop tl x y) as Hstop. pose proof (fun d => span_more_fit tl x y d F1 F2) as Hfit.
    set (n := span_more x y tl) in *. clearbody n. cbn [length] in Hf.
    assert (F2' := F2). rewrite <- (firstn_skipn n tl) in F2'. apply Forall_app in F2' as [F3 F4].
    assert (L1 : length (firstn n tl) = n) by now apply firstn_length_le.
    assert (L2 : length (skipn n tl) = (length tl - n)%nat) by apply skipn_length.
    edestruct (IH (skipn n tl)) as (rs & R1 & R2 & R3 & R4 & R5 & R6 & R7); [lia|exact F4|]. rewrite R1, R2. cbn [bind].
    exists (Run (x, y) (firstn n tl) :: rs). cbn [flat_map seg_bytes fst snd]. rewrite L1.
    assert (EB : varint_enc (N.of_nat n * 2) ++ fixed_enc x ++ fixed_enc y ++ span_deltas x y (firstn n tl) ++ flat_map seg_bytes rs =
      (varint_enc (2 * N.of_nat n) ++ le_bytes 4 (Z.to_N x) ++ le_bytes 4 (Z.to_N y) ++ flat_map (fun d => diff_bytes (fst d) ++ diff_bytes (snd d)) (differences (x, y) (firstn n tl))) ++ flat_map seg_bytes rs).
    { destruct F1 as [F1a F1b]. cbn [fst snd] in *. rewrite (fixed_enc_spec x), (fixed_enc_spec y), span_deltas_spec by assumption. rewrite N.mul_comm, <- !app_assoc. reflexivity. }
    rewrite EB. split; [reflexivity|]. split.
    { do 3 f_equal.
      - unfold run_count. cbn [filter is_run length]. lia.
      - apply counters_ext. intros i. rewrite !diffs_of_count. cbn [flat_map seg_diffs]. rewrite size_count_app. lia.
      - apply cum_ext. intros l. rewrite runs_up_cons. cbn [is_run seg_nodes length andb]. rewrite L1. replace (N.of_nat (S n)) with (N.of_nat n + 1)%N by lia. lia. }
    cbn [flat_map seg_nodes]. split; [rewrite R3; cbn [app]; f_equal; apply firstn_skipn|].
    split; [constructor; [reflexivity|exact R4]|]. split; [|split].
    + destruct rs as [|s rs]; [exact I|]. split; [|exact R5]. destruct s as [m|q qs]; [inversion R4; discriminate|].
      cbn [flat_map seg_nodes app] in R3. unfold apart. apply (Hstop q (qs ++ flat_map seg_nodes rs) F1 F2). now rewrite <- R3.
    + intros s d [<-|Hs] Hd; [exact (Hfit d Hd)|exact (R6 s d Hs Hd)].
    + rewrite !app_length, !le_bytes_length. pose proof (header_len n) as Hh. pose proof (size_le (firstn n tl) (x, y) Hfit) as Hs. rewrite L1 in Hs. cbn [length]. lia.
Qed.

(** ** the builder *)
Definition gap_count (segs : list segment) : nat := length (filter (fun s => negb (is_run s)) segs).
Definition ends_with_gap (segs : list segment) : Prop := segs = [] \/ exists a n, segs = a ++ [Gap n].
Definition nodes_of (segs : list segment) : list (Z * Z) := flat_map seg_nodes segs.
Record file_ok (segs : list segment) (dat : bytes) (st : nstats) (idx : list (Z * N)) (w : N) : Prop := FileOk {
  f_dat : dat = flat_map seg_bytes segs;
  f_spans : s_spans st = N.of_nat (run_count segs);
  f_chars : s_chars st = counters (fun i => diffs_of_size i segs);
  f_cum : s_cum st = cum_of (fun l => runs_up_to l segs);
  f_adj : adj segs;
  f_fit : forall s d, In s segs -> In d (seg_diffs s) -> (pair_size d <= 9)%nat;
  f_size : (64 * length dat <= 577 * length (nodes_of segs) + 640 * gap_count segs)%nat;
  f_idx : (idx = [] /\ w = 0%N) \/ (1025 * (length idx - 1) + N.to_nat w <= length (nodes_of segs))%nat }.

Lemma gap_count_app a b : gap_count (a ++ b) = (gap_count a + gap_count b)%nat.
Proof. unfold gap_count. now rewrite filter_app, app_length. Qed.
Lemma gaps_none rs : Forall (fun s => is_run s = true) rs -> gap_count rs = 0%nat.
Proof. induction 1 as [|s rs H _ IH]; [reflexivity|]. unfold gap_count in *. cbn [filter]. now rewrite H. Qed.
Lemma diffs_gap i n : diffs_of_size i [Gap n] = 0%nat.
Proof. reflexivity. Qed.

Lemma push_span_st b st segs : file_ok segs (nb_dat b) st (nb_idx b) (nb_written b) -> ends_with_gap segs -> Forall pos_ok (nb_span b) ->
  exists rs b' st', push_coord_span b = Ok b' /\ push_coord_span_st b st = Ok (b', st') /\ file_ok (segs ++ rs) (nb_dat b') st' (nb_idx b') (nb_written b') /\
    nodes_of rs = nb_span b /\ gap_count rs = 0%nat /\ s_nodes st' = s_nodes st /\ nb_last b' = nb_last b /\ nb_pos b' = nb_pos b /\ nb_span b' = [].
Proof.
  intros FO EG Fp. destruct b as [idx dat la po sp wr]. cbn [nb_dat nb_idx nb_written nb_span nb_last nb_pos] in *.
  unfold push_coord_span, push_coord_span_st. cbn [nb_dat nb_idx nb_written nb_span nb_last nb_pos].
  destruct sp as [|p0 sp0].
  { exists [], (NB idx dat la po [] wr), st. split; [reflexivity|]. split; [reflexivity|]. rewrite app_nil_r. cbn [nb_dat nb_idx nb_written nb_span nb_last nb_pos].
    split; [exact FO|]. split; [reflexivity|]. split; [reflexivity|]. split; [reflexivity|]. split; [reflexivity|]. split; reflexivity. }
  set (sp := p0 :: sp0) in *. assert (Lsp : (0 < length sp)%nat) by (subst sp; cbn [length]; lia). clearbody sp. clear p0 sp0.
  destruct FO as [Fd Fs Fc Fm Fa Ff Fz Fi]. destruct st as [nd ns ch cu]. cbn [s_spans s_chars s_cum s_nodes] in *. subst ns ch cu.
  edestruct (coord_spans_st_spec (length sp) sp) as (rs & R1 & R2 & R3 & R4 & R5 & R6 & R7); [lia|exact Fp|].
  rewrite R1, R2. cbn [bind].
  set (w1 := match idx with [] => true | _ => false end || (1024 <? wr)%N).
  exists rs. destruct w1 eqn:EW; cbn [bind]; eexists _, _; (split; [reflexivity|]); (split; [reflexivity|]); cbn [nb_dat nb_idx nb_written nb_span nb_last nb_pos s_nodes].
  all: assert (Adj : adj (segs ++ rs)) by (apply adj_app; [exact Fa|exact R5|]; intros s t _ _ Hs _ [a' Ea]; destruct EG as [->|(a & n & ->)]; [destruct a'; discriminate|];
         apply app_inj_tail in Ea as [_ <-]; discriminate Hs).
  all: assert (Fit : forall s d, In s (segs ++ rs) -> In d (seg_diffs s) -> (pair_size d <= 9)%nat) by (intros s d Hs; apply in_app_or in Hs as [Hs|Hs]; [exact (Ff s d Hs)|exact (R6 s d Hs)]).
  all: assert (NN : length (nodes_of (segs ++ rs)) = (length (nodes_of segs) + length sp)%nat) by (unfold nodes_of; now rewrite flat_map_app, app_length, R3).
  all: split; [constructor; cbn [s_spans s_chars s_cum]|repeat (split; [first [exact R3|exact (gaps_none rs R4)|reflexivity]|]); reflexivity].
  all: try exact Adj. all: try exact Fit.
  all: try (rewrite flat_map_app; now subst dat).
  all: try (rewrite run_count_app; lia).
  all: try (apply counters_ext; intros i; now rewrite diffs_of_app).
  all: try (apply cum_ext; intros l; now rewrite runs_up_app).
  all: try (rewrite app_length, NN, gap_count_app, (gaps_none rs R4); lia).
  - right. rewrite NN, app_length. cbn [length]. subst w1. apply orb_true_iff in EW. destruct EW as [EW|EW].
    + destruct idx; [|discriminate]. cbn [length]. lia.
    + apply N.ltb_lt in EW. destruct Fi as [[-> Fi]|Fi]; [lia|]. lia.
  - right. rewrite NN. subst w1. apply orb_false_iff in EW as [EW1 EW2]. destruct Fi as [[-> Fi]|Fi]; [discriminate|]. lia.
Qed.

Lemma push_gap_st b st segs next b' : file_ok segs (nb_dat b) st (nb_idx b) (nb_written b) -> nb_last b < next -> push_empty_span next b = Ok b' ->
  (0 <= nb_last b \/ next = nb_last b + 1) ->
  exists n, file_ok (segs ++ [Gap n]) (nb_dat b') st (nb_idx b') (nb_written b') /\ nb_last b' = nb_last b /\ nb_pos b' = nb_pos b /\ nb_span b' = nb_span b.
Proof.
  intros FO Hlt H HL. unfold push_empty_span in H. apply bind_ok in H as (g & G1 & H). apply bind_ok in H as (g2 & G2 & H). apply Ok_inj in H. subst b'.
  cbn [nb_dat nb_idx nb_written nb_span nb_last nb_pos].
  unfold sub64 in G1, G2. destruct (int64_ok (next - nb_last b)) eqn:E1; [|discriminate]. apply Ok_inj in G1. subst g.
  destruct (int64_ok (next - nb_last b - 1)) eqn:E2; [|discriminate]. apply Ok_inj in G2. subst g2.
  unfold int64_ok, min64, max64 in E1, E2.
  set (g := next - nb_last b - 1) in *. exists (Z.to_N g).
  assert (Eg : (to_u64 (g * 2) + 1 = 2 * Z.to_N g + 1)%N). { unfold to_u64. rewrite Z.mod_small by lia. lia. }
  rewrite Eg. clear Eg. split; [|split; [reflexivity|split; reflexivity]].
  destruct FO as [Fd Fs Fc Fm Fa Ff Fz Fi].
  assert (NN : nodes_of (segs ++ [Gap (Z.to_N g)]) = nodes_of segs) by (unfold nodes_of; rewrite flat_map_app; apply app_nil_r).
  constructor.
  - rewrite flat_map_app. cbn [flat_map seg_bytes]. now rewrite app_nil_r, Fd.
  - rewrite Fs, run_count_app. unfold run_count. cbn [filter is_run length]. lia.
  - rewrite Fc. apply counters_ext. intros i. rewrite diffs_of_app, diffs_gap. lia.
  - rewrite Fm. apply cum_ext. intros l. rewrite runs_up_app, (runs_up_cons l (Gap _) []). cbn [is_run andb]. unfold runs_up_to. cbn. lia.
  - apply adj_app; [exact Fa|exact I|]. intros s t _ [<-|[]] _ Ht _. discriminate Ht.
  - intros s d Hs. apply in_app_or in Hs as [Hs|[<-|[]]]; [exact (Ff s d Hs)|intros []].
  - rewrite NN, app_length, gap_count_app. unfold gap_count at 2. cbn [filter is_run negb length].
    pose proof (varint_len_f 10 (2 * Z.to_N g + 1)) as L. unfold varint_enc. lia.
  - rewrite NN. exact Fi.
Qed.

(** state between two nodes: what was read, what is written *)
Definition bst_ok (b : nbuilder) (st : nstats) (segs : list segment) : Prop :=
  file_ok segs (nb_dat b) st (nb_idx b) (nb_written b) /\ ends_with_gap segs /\ Forall pos_ok (nb_span b) /\
  s_nodes st = N.of_nat (length (nodes_of segs ++ nb_span b)) /\
  ((b = nb_init /\ segs = []) \/ (0 <= nb_last b /\ nb_span b <> [])).

Lemma init_ok : bst_ok nb_init nstats0 [].
Proof.
  split; [|split; [left; reflexivity|split; [constructor|split; [reflexivity|left; split; reflexivity]]]].
  constructor; try reflexivity; [intros s d []|left; split; reflexivity].
Qed.


Definition same_id (b : nbuilder) (id : Z) : bool := Z.abs id =? nb_last b.
Definition goes_on (b : nbuilder) (id : Z) : bool := (Z.abs id =? nb_last b) || (Z.abs id =? nb_last b + 1).

Lemma nb_push_st_spec b st segs id p b' : bst_ok b st segs -> nb_push b id p = Ok b' ->
  exists st' more, nb_push_st b st id p = Ok (b', st') /\ bst_ok b' st' (segs ++ more) /\ nb_last b' = Z.abs id /\ nb_span b' <> [] /\
    nodes_of (segs ++ more) ++ nb_span b' = (nodes_of segs ++ nb_span b) ++ (if same_id b id then [] else [p]) /\
    gap_count more = (if match nb_span b with [] => true | _ => false end || goes_on b id then 0 else 1)%nat.
Proof.
  intros (FO & EG & Fp & Hn & Hi) H. unfold nb_push in H. apply bind_ok in H as ([] & V & H). unfold nb_push_st. rewrite V. cbn [bind].
  apply verify_ok in V. assert (Pp : pos_ok p) by (unfold pos_ok; lia). clear V.
  apply bind_ok in H as (a & A & H). rewrite A. cbn [bind].
  assert (Ea : a = Z.abs id) by (unfold abs64 in A; destruct (id =? min64); [discriminate|]; now apply Ok_inj in A). subst a.
  unfold same_id, goes_on. destruct (Z.eqb_spec (Z.abs id) (nb_last b)) as [E|NE].
  { apply bind_ok in H as ([] & V & H). rewrite V. cbn [bind]. apply Ok_inj in H. subst b'.
    destruct Hi as [[-> ->]|[Hl Hs]]; [unfold nb_init, min64 in E; cbn [nb_last] in E; lia|].
    exists st, []. rewrite !app_nil_r. split; [reflexivity|]. split; [|split; [symmetry; exact E|split; [exact Hs|split; [reflexivity|]]]].
    - split; [exact FO|]. split; [exact EG|]. split; [exact Fp|]. split; [exact Hn|]. right. split; assumption.
    - cbn [orb]. now rewrite orb_true_r. }
  apply bind_ok in H as ([] & V & H). rewrite V. cbn [bind]. apply verify_ok in V. apply Z.ltb_lt in V.
  apply bind_ok in H as (n & A1 & H). rewrite A1. cbn [bind].
  assert (En : n = nb_last b + 1) by (unfold add64 in A1; destruct (int64_ok _); [|discriminate]; now apply Ok_inj in A1). subst n.
  rewrite (Z.eqb_sym (Z.abs id) (nb_last b + 1)). cbn [orb].
  set (st1 := NStats (s_nodes st + 1) (s_spans st) (s_chars st) (s_cum st)).
  assert (FO1 : file_ok segs (nb_dat b) st1 (nb_idx b) (nb_written b)) by (destruct FO; constructor; assumption).
  destruct (Z.eqb_spec (nb_last b + 1) (Z.abs id)) as [En|Nn].
  { cbn [negb andb bind] in H |- *. apply Ok_inj in H. subst b'. exists st1, []. rewrite !app_nil_r, orb_true_r. split; [reflexivity|]. cbn [nb_last nb_span].
    split; [|split; [reflexivity|split; [destruct (nb_span b); discriminate|split; [now rewrite app_assoc|reflexivity]]]].
    split; [exact FO1|]. split; [exact EG|]. cbn [nb_span nb_last nb_dat nb_idx nb_written]. split; [apply Forall_app; split; [exact Fp|constructor; [exact Pp|constructor]]|].
    split; [|right; split; [lia|destruct (nb_span b); discriminate]]. subst st1. cbn [s_nodes]. rewrite Hn, !app_length. cbn [length]. lia. }
  destruct (nb_span b) as [|p0 sp0] eqn:Esp; rewrite ?Esp in H.
  { cbn [negb andb bind] in H |- *. apply Ok_inj in H. subst b'. exists st1, []. rewrite !app_nil_r. split; [reflexivity|]. cbn [nb_last nb_span]. rewrite ?Esp. cbn [app].
    split; [|split; [reflexivity|split; [discriminate|split; [reflexivity|reflexivity]]]].
    split; [exact FO1|]. split; [exact EG|]. cbn [nb_span nb_last nb_dat nb_idx nb_written app]. rewrite ?Esp. cbn [app]. split; [constructor; [exact Pp|constructor]|].
    split; [|right; split; [lia|discriminate]]. subst st1. cbn [s_nodes]. rewrite Hn, !app_length. cbn [length]. lia. }
  cbn [negb andb] in H |- *. apply bind_ok in H as (b2 & H & H2). apply bind_ok in H as (b1 & P1 & P2). apply Ok_inj in H2. subst b'.
  destruct Hi as [[-> ->]|[Hl Hs]]; [cbn [nb_init nb_span] in Esp; discriminate|].
  destruct (push_span_st b st1 segs FO1 EG) as (rs & b1' & st2 & Q1 & Q2 & Q3 & Q4 & Q5 & Q6 & Q7 & Q8 & Q9); [now rewrite Esp|].
  rewrite Q1 in P1. apply Ok_inj in P1. subst b1'. rewrite Q2. cbn [bind]. rewrite P2. cbn [bind].
  destruct (push_gap_st b1 st2 (segs ++ rs) (Z.abs id) b2 Q3 ltac:(lia) P2 ltac:(left; lia)) as (g & G1 & G2 & G3 & G4).
  exists st2, (rs ++ [Gap g]). split; [reflexivity|]. cbn [nb_last nb_span]. rewrite G4, Q9. cbn [app].
  assert (EN : nodes_of (segs ++ rs ++ [Gap g]) = nodes_of segs ++ p0 :: sp0).
  { unfold nodes_of in *. rewrite !flat_map_app, Q4, Esp. cbn [flat_map seg_nodes]. now rewrite app_nil_r. }
  split; [|split; [reflexivity|split; [discriminate|split; [now rewrite EN|]]]].
  - split; [cbn [nb_dat nb_idx nb_written]; rewrite app_assoc; exact G1|]. split; [right; exists (segs ++ rs), g; now rewrite app_assoc|].
    cbn [nb_span nb_last]. split; [constructor; [exact Pp|constructor]|]. split; [|right; split; [lia|discriminate]].
    rewrite Q6, EN. subst st1. cbn [s_nodes]. rewrite Hn, !app_length. cbn [length]. lia.
  - rewrite gap_count_app, Q5. reflexivity.
Qed.

Lemma push_nodes_st_spec ns : forall b st segs b', bst_ok b st segs -> nb_span b <> [] -> push_nodes b ns = Ok b' ->
  exists st' more, push_nodes_st b st ns = Ok (b', st') /\ bst_ok b' st' (segs ++ more) /\ nb_span b' <> [] /\
    nodes_of (segs ++ more) ++ nb_span b' = (nodes_of segs ++ nb_span b) ++ nodes_after (Some (nb_last b)) ns /\
    gap_count more = breaks_after (nb_last b) ns.
Proof.
  induction ns as [|[id p] ns IH]; intros b st segs b' HB Hs H; cbn [push_nodes push_nodes_st] in *.
  - apply Ok_inj in H. subst b'. exists st, []. rewrite !app_nil_r. split; [reflexivity|]. split; [exact HB|]. split; [exact Hs|]. split; [cbn [nodes_after]; rewrite ?app_nil_r; reflexivity|reflexivity].
  - apply bind_ok in H as (b1 & H1 & H2). destruct (nb_push_st_spec _ _ _ _ _ _ HB H1) as (st1 & m1 & E1 & HB1 & L1 & S1 & N1 & G1). rewrite E1. cbn [bind].
    destruct (IH _ _ _ _ HB1 S1 H2) as (st' & m2 & E2 & HB2 & S2 & N2 & G2). exists st', (m1 ++ m2). split; [exact E2|].
    rewrite !app_assoc. split; [exact HB2|]. split; [exact S2|]. split.
    + rewrite N2, N1, L1. cbn [nodes_after]. unfold same_id. rewrite <- !app_assoc. reflexivity.
    + rewrite gap_count_app, G1, G2, L1. cbn [breaks_after]. unfold goes_on. destruct (nb_span b); [contradiction|]. reflexivity.
Qed.

Lemma build_stats ns idx dat : build_index ns = Ok (idx, dat) ->
  exists st segs, build_index_st ns = Ok (idx, dat, st) /\ dat = flat_map seg_bytes segs /\ runs_fit segs /\ flat_map seg_nodes segs = stream_nodes ns /\
    s_nodes st = N.of_nat (length (stream_nodes ns)) /\ s_spans st = N.of_nat (run_count segs) /\
    s_chars st = counters (fun i => diffs_of_size i segs) /\ s_cum st = cum_of (fun l => runs_up_to l segs) /\
    (64 * length dat <= 577 * length (stream_nodes ns) + 640 * stream_breaks ns + 640)%nat /\
    (1025 * (length idx - 1) <= length (stream_nodes ns))%nat.
Proof.
  intros H. unfold build_index in H. apply bind_ok in H as (b & H & H2). apply bind_ok in H2 as (b2 & H2 & H3). injection H3 as <- <-.
  assert (P : exists st segs, push_nodes_st nb_init nstats0 ns = Ok (b, st) /\ bst_ok b st segs /\ nodes_of segs ++ nb_span b = stream_nodes ns /\ gap_count segs = stream_breaks ns).
  { destruct ns as [|[id p] ns]; cbn [push_nodes push_nodes_st] in *.
    - apply Ok_inj in H. subst b. exists nstats0, []. split; [reflexivity|]. split; [exact init_ok|]. split; reflexivity.
    - apply bind_ok in H as (b1 & H1 & H3). destruct (nb_push_st_spec _ _ _ _ _ _ init_ok H1) as (st1 & m1 & E1 & HB1 & L1 & S1 & N1 & G1). rewrite E1. cbn [bind].
      destruct (push_nodes_st_spec _ _ _ _ _ HB1 S1 H3) as (st' & m2 & E2 & HB2 & S2 & N2 & G2). exists st', ([] ++ m1 ++ m2). split; [exact E2|].
      split; [exact HB2|]. split.
      + rewrite app_assoc, N2, N1, L1. unfold stream_nodes. cbn [nodes_after]. unfold same_id. cbn [nb_init nb_last].
        destruct (Z.eqb_spec (Z.abs id) min64) as [E|_]; [unfold min64 in E; lia|]. reflexivity.
      + cbn [app]. rewrite gap_count_app, G1, G2, L1. reflexivity. }
  destruct P as (st & segs & E1 & (FO & EG & Fp & Hn & Hi) & N1 & G1). unfold build_index_st. rewrite E1. cbn [bind].
  unfold nb_finish in H2. apply bind_ok in H2 as (b1 & P1 & H2). apply bind_ok in H2 as (n & A1 & P2). unfold nb_finish_st.
  destruct (push_span_st b st segs FO EG Fp) as (rs & b1' & st2 & Q1 & Q2 & Q3 & Q4 & Q5 & Q6 & Q7 & Q8 & Q9).
  rewrite Q1 in P1. apply Ok_inj in P1. subst b1'. rewrite Q2. cbn [bind]. rewrite A1. cbn [bind]. rewrite P2. cbn [bind].
  assert (En : n = nb_last b1 + 1) by (unfold add64 in A1; destruct (int64_ok _); [|discriminate]; now apply Ok_inj in A1). subst n.
  destruct (push_gap_st b1 st2 (segs ++ rs) (nb_last b1 + 1) b2 Q3 ltac:(lia) P2 ltac:(right; reflexivity)) as (g & F2 & _).
  set (sg := (segs ++ rs) ++ [Gap g]) in *.
  assert (NN : nodes_of sg = stream_nodes ns). { rewrite <- N1. unfold sg, nodes_of in *. rewrite !flat_map_app, Q4. cbn [flat_map seg_nodes]. apply app_nil_r. }
  assert (GG : gap_count sg = S (stream_breaks ns)). { unfold sg. rewrite !gap_count_app, Q5, G1. unfold gap_count. cbn [filter is_run negb length]. lia. }
  clearbody sg. destruct F2 as [Fd Fs Fc Fm Fa Ff Fz Fi].
  exists st2, sg. split; [reflexivity|]. split; [exact Fd|]. split; [split; [exact Ff|]; intros a p ps q qs r E; exact (adj_split sg Fa a (Run p ps) (Run q qs) r E)|].
  split; [exact NN|]. split; [rewrite Q6, Hn, N1; reflexivity|]. split; [exact Fs|]. split; [exact Fc|]. split; [exact Fm|].
  rewrite NN, GG in *. split; [lia|]. destruct Fi as [[-> _]|Fi]; [cbn [length]; lia|lia].
Qed.
