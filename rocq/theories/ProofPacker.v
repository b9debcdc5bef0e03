(** Indexed packs: layout and reading. *)
From Coq Require Import Permutation.
From Verif Require Import Base BaseProof ModelTile SpecTile ProofTile ModelCodec ProofCodec ModelGeom SpecGeom ModelFeature SpecFeature ProofFeature
  ModelQuadTree SpecQuadTree ProofQuadTree ProofQuadWalk ProofQuadOrder ModelPack SpecPack ProofPack
  ModelPacker SpecPacker ProofBestTile.
Open Scope N_scope.

(** ** Quad keys *)
Lemma key_trace_S f root b r : key_trace (S f) root (b :: r) =
  if tile_eqb (tile_parent b) root then Ok (root :: b :: r)
  else do _ <- verify (tz root <? tz b); key_trace f root (tile_parent b :: b :: r).
Proof. reflexivity. Qed.

Lemma key_trace_ok root q : tz q < 2 ^ 32 -> covers root q -> root <> q -> forall n j,
  (n + j = N.to_nat (tz q))%nat -> (N.of_nat j < tz q - tz root) ->
  key_trace (S n) root (trace_down q j) = Ok (trace_down q (N.to_nat (tz q - tz root))).
Proof.
  intros Hz HC HN. pose proof (covers_anc _ _ HC) as EA. assert (Hle : tz root <= tz q) by apply HC.
  induction n as [|n IH]; intros j Hn Hj; destruct (trace_down_head q j) as [r Er]; rewrite Er, key_trace_S, <- Er.
  - exfalso. lia.
  - rewrite anc_parent by lia. destruct (tile_eqb_spec (anc (N.of_nat j + 1) q) root) as [E|E].
    + assert (HT : tz root = tz q - (N.of_nat j + 1)) by now rewrite <- E.
      replace (N.to_nat (tz q - tz root)) with (S j) by lia. cbn [trace_down].
      replace (N.of_nat (S j)) with (N.of_nat j + 1) by lia. now rewrite E.
    + rewrite anc_tz. replace (tz root <? tz q - N.of_nat j) with true by lia. cbn [verify bind].
      replace (anc (N.of_nat j + 1) q :: trace_down q j) with (trace_down q (S j)).
      * apply IH; [lia|]. destruct (N.eq_dec (N.of_nat (S j)) (tz q - tz root)) as [E'|]; [|lia].
        exfalso. apply E. rewrite EA. f_equal. lia.
      * cbn [trace_down]. do 2 f_equal. lia.
Qed.

Lemma trace_down_map q k : (k <= N.to_nat (tz q))%nat -> map quad_pos (trace_down q k) =
  map (fun i => digit q (tz q - N.of_nat k + N.of_nat i)) (seq 0 (S k)).
Proof.
  assert (HQ : forall j, j <= tz q -> quad_pos (anc j q) = digit q (tz q - j)).
  { intros j Hj. rewrite quad_pos_spec. unfold digit, anc. cbn [tx ty]. now replace (tz q - (tz q - j)) with j by lia. }
  induction k as [|k IH]; intros Hk; cbn [trace_down map].
  - rewrite <- (anc_0 q) at 1. rewrite HQ by lia. cbn [seq map]. do 2 f_equal; lia.
  - rewrite HQ by lia. rewrite IH by lia. change (seq 0 (S (S k))) with (0%nat :: seq 1 (S k)).
    rewrite <- (seq_shift (S k) 0), map_cons, map_map. f_equal; [f_equal; lia|].
    apply map_ext. intros i. f_equal. lia.
Qed.

Definition key_of_tile (root t : tile) : list N :=
  if tile_eqb t root then [] else quad_pos root :: zpath root t.

Lemma make_quad_key_ok root t : covers root t -> tz t < 2 ^ 32 -> make_quad_key root t = Ok (key_of_tile root t).
Proof.
  intros HC Hz. unfold make_quad_key, key_of_tile. destruct (tile_eqb_spec t root) as [->|HN]; [reflexivity|].
  assert (Hlt : tz root < tz t).
  { destruct (N.eq_dec (tz root) (tz t)) as [E|E]; [|destruct HC; lia]. exfalso. apply HN. symmetry. now apply covers_same_z. }
  change [t] with (trace_down t 0). rewrite (key_trace_ok root t Hz HC); [|congruence|lia|lia]. cbn [bind]. f_equal.
  rewrite trace_down_map by lia. cbn [seq map]. f_equal.
  - replace (tz t - N.of_nat (N.to_nat (tz t - tz root)) + N.of_nat 0) with (tz root) by lia.
    rewrite <- (covers_digit root t) by (try assumption; lia). unfold digit. now rewrite N.sub_diag, N.pow_0_r, !N.div_1_r, quad_pos_spec.
  - unfold zpath. rewrite <- seq_shift, map_map. apply map_ext_in. intros i Hi. f_equal. lia.
Qed.

Lemma zpath_self root : zpath root root = [].
Proof. unfold zpath. rewrite N.sub_diag. reflexivity. Qed.

Lemma zpath_nonempty root t : covers root t -> t <> root -> exists x l, zpath root t = x :: l.
Proof.
  intros HC HN. destruct (zpath root t) as [|x l] eqn:E; [|eauto]. destruct HN.
  apply (zpath_inj root); [assumption | apply covers_refl | now rewrite zpath_self].
Qed.

Lemma key_order root a b : covers root a -> covers root b ->
  lex_leb (key_of_tile root a) (key_of_tile root b) = lex_leb (zpath root a) (zpath root b).
Proof.
  intros Ha Hb. unfold key_of_tile. destruct (tile_eqb_spec a root) as [->|Na]; destruct (tile_eqb_spec b root) as [->|Nb]; rewrite ?zpath_self; cbn [lex_leb].
  - reflexivity.
  - reflexivity.
  - destruct (zpath_nonempty root a Ha Na) as (x & l & ->). reflexivity.
  - rewrite N.ltb_irrefl, N.eqb_refl. reflexivity.
Qed.

Lemma key_inj root a b : covers root a -> covers root b -> key_of_tile root a = key_of_tile root b -> a = b.
Proof.
  intros Ha Hb E. apply (zpath_inj root); [assumption..|]. apply lex_antisym.
  - rewrite <- key_order, E by assumption. apply lex_refl.
  - rewrite <- key_order, E by assumption. apply lex_refl.
Qed.

(** ** Reading the input *)
Section Reading.
Context (dec : N -> res meta) (rd : mask_reader) (root : tile).

Definition lvl (q : qfeature) : nat := N.to_nat (N.max (tz root) (f_minz (qf_feat q)) - tz root).
Definition is_input (s : bytes) (q : qfeature) : Prop :=
  deserialize_feature dec rd no_hints s = Ok (Some (qf_feat q)) /\
  find_best_tile root (bounding_box (f_geom (qf_feat q))) = Ok (qf_tile q) /\
  make_quad_key root (qf_tile q) = Ok (qf_key q).
Definition by_level (n k : nat) (qs : list qfeature) : list (list qfeature) :=
  map (fun i => filter (fun q => (lvl q =? i)%nat) qs) (seq k n).

Lemma put_at_level q : forall z n k qs r, lvl q = (k + z)%nat -> put_at z q (by_level n k qs) = Ok r ->
  (z < n)%nat /\ r = by_level n k (qs ++ [q]).
Proof.
  induction z as [|z IH]; intros n k qs r HL; destruct n as [|n]; unfold by_level; cbn [seq map put_at]; try discriminate.
  - intros H. apply Ok_inj in H. subst r. split; [lia|]. cbn [map]. f_equal.
    + rewrite filter_app. cbn [filter]. replace (lvl q =? k)%nat with true by lia. reflexivity.
    + apply map_ext_in. intros i Hi. apply in_seq in Hi. rewrite filter_app. cbn [filter].
      replace (lvl q =? i)%nat with false by lia. now rewrite app_nil_r.
  - intros H. apply bind_ok in H. destruct H as (r' & H & HR). apply Ok_inj in HR. subst r.
    apply IH in H; [|lia]. destruct H as [Hz ->]. split; [lia|]. f_equal.
    rewrite filter_app. cbn [filter]. replace (lvl q =? k)%nat with false by lia. now rewrite app_nil_r.
Qed.

Lemma put_at_ok q : forall z n k qs, lvl q = (k + z)%nat -> (z < n)%nat -> exists r, put_at z q (by_level n k qs) = Ok r.
Proof.
  induction z as [|z IH]; intros n k qs HL Hz; destruct n as [|n]; try lia; unfold by_level; cbn [seq map put_at]; [eauto|].
  destruct (IH n (S k) qs ltac:(lia) ltac:(lia)) as (r & E). unfold by_level in E. rewrite E. cbn [bind]. eauto.
Qed.

Lemma read_inputs_inv n : forall strs qs0 ls, read_inputs dec rd root strs (by_level n 0 qs0) = Ok ls ->
  exists qs, Forall2 is_input strs qs /\ Forall (fun q => (lvl q < n)%nat) qs /\ ls = by_level n 0 (qs0 ++ qs).
Proof.
  induction strs as [|s strs IH]; intros qs0 ls H; cbn [read_inputs] in H.
  - apply Ok_inj in H. exists []. rewrite app_nil_r. repeat split; [constructor | constructor | now symmetry].
  - apply bind_ok in H. destruct H as (ls' & H1 & H2). unfold read_input in H1.
    apply bind_ok in H1. destruct H1 as ([f|] & D & H1); [|discriminate].
    apply bind_ok in H1. destruct H1 as (best & B & H1). apply bind_ok in H1. destruct H1 as (key & K & H1).
    apply put_at_level in H1; [|reflexivity]. destruct H1 as [Hl ->].
    destruct (IH _ _ H2) as (qs & F & HL & ->). exists (QF key best f :: qs).
    split; [constructor; [split; [exact D | split; [exact B | exact K]] | exact F]|].
    split; [constructor; [exact Hl | exact HL]|]. now rewrite <- app_assoc.
Qed.

(** the strings the packs contain *)
Definition unpacked (p : bytes) (strs : list bytes) : Prop := exists rest, unpack_features p = Ok (strs, rest).

Lemma read_packs_inv n : forall packs qs0 ls k m,
  read_packs dec rd root packs (by_level n 0 qs0) k = Ok (ls, m) ->
  exists strss qs, Forall2 unpacked packs strss /\ Forall2 is_input (concat strss) qs /\
    Forall (fun q => (lvl q < n)%nat) qs /\ ls = by_level n 0 (qs0 ++ qs) /\ m = k + N.of_nat (length qs).
Proof.
  induction packs as [|p packs IH]; intros qs0 ls k m H; cbn [read_packs] in H.
  - apply Ok_inj in H. injection H as <- <-. exists [], []. cbn [concat]. rewrite app_nil_r. cbn [length].
    repeat split; [constructor | constructor | constructor | lia].
  - apply bind_ok in H. destruct H as ([strs rest] & U & H). apply bind_ok in H. destruct H as (ls' & R & H).
    apply read_inputs_inv in R. destruct R as (qs1 & F1 & L1 & ->).
    apply IH in H. destruct H as (strss & qs2 & FU & F2 & L2 & -> & ->).
    exists (strs :: strss), (qs1 ++ qs2). cbn [concat].
    split; [constructor; [exists rest; exact U | exact FU]|]. split; [now apply Forall2_app|].
    split; [apply Forall_app; now split|]. split; [now rewrite app_assoc|].
    rewrite app_length. apply Forall2_len in F1. lia.
Qed.

End Reading.

(** ** Runs of equal keys *)
Definition same_key (x : qfeature) (g : list qfeature) : Prop := Forall (fun y => qf_key y = qf_key x) g.

Lemma runs_head x l : exists g gs, runs (x :: l) = (x :: g) :: gs.
Proof.
  cbn [runs]. destruct (runs l) as [|[|y g] gs]; eauto. destruct (bytes_eqb (qf_key x) (qf_key y)); eauto.
Qed.

Lemma runs_ok : forall l, concat (runs l) = l /\ Forall (fun g => match g with [] => False | x :: g' => same_key x g' end) (runs l).
Proof.
  induction l as [|x l [IH1 IH2]]; [split; [reflexivity | constructor]|].
  destruct l as [|x' l]; [cbn; split; [reflexivity | constructor; [constructor | constructor]]|].
  destruct (runs_head x' l) as (g & gs & E). change (runs (x :: x' :: l)) with
    (match runs (x' :: l) with (y :: g) :: gs => if bytes_eqb (qf_key x) (qf_key y) then (x :: y :: g) :: gs else [x] :: (y :: g) :: gs | _ => [[x]] end).
  rewrite E in *. destruct (bytes_eqb (qf_key x) (qf_key x')) eqn:EK.
  - apply bytes_eqb_eq in EK. split; [cbn [concat app] in *; now rewrite IH1|].
    inversion IH2; subst. constructor; [|assumption]. unfold same_key in *. constructor; [now symmetry|].
    eapply Forall_impl; [|eassumption]. cbn. congruence.
  - split; [cbn [concat app] in *; now rewrite IH1|]. constructor; [constructor | assumption].
Qed.

Definition key_le (a b : qfeature) : Prop := lex_leb (qf_key a) (qf_key b) = true.
Definition head_key (g : list qfeature) : list N := match g with [] => [] | x :: _ => qf_key x end.
Definition key_lt (a b : list N) : Prop := lex_leb a b = true /\ a <> b.

Lemma runs_sorted : forall l, StronglySorted key_le l -> StronglySorted (fun g h => key_lt (head_key g) (head_key h)) (runs l).
Proof.
  induction l as [|x l IH]; intros HS; [constructor|]. inversion HS as [|? ? HS' HF]; subst.
  specialize (IH HS').
  assert (HA : Forall (fun g => lex_leb (qf_key x) (head_key g) = true) (runs l)).
  { destruct (runs_ok l) as [R1 R2]. rewrite <- R1 in HF. clear - HF R2.
    induction R2 as [|g gs Hg R2 IH]; [constructor|]. cbn [concat] in HF. apply Forall_app in HF. destruct HF as [HF1 HF2].
    constructor; [|auto]. destruct g as [|y g]; [destruct Hg|]. inversion HF1; assumption. }
  cbn [runs]. destruct (runs l) as [|[|y g] gs] eqn:ER.
  - constructor; [constructor | constructor].
  - exfalso. destruct (runs_ok l) as [_ R2]. rewrite ER in R2. inversion R2; subst. assumption.
  - destruct (bytes_eqb (qf_key x) (qf_key y)) eqn:EK.
    + apply bytes_eqb_eq in EK. inversion IH; subst. constructor; [assumption|]. cbn [head_key] in *. now rewrite EK.
    + constructor; [assumption|].
      assert (NE : qf_key x <> qf_key y) by (intros E; apply bytes_eqb_eq in E; congruence).
      inversion HA as [|? ? HA1 HA2]; subst. cbn [head_key] in HA1.
      constructor; [split; assumption|]. inversion IH as [|? ? _ IHF]; subst. cbn [head_key] in IHF.
      clear - IHF HA1 NE. rewrite Forall_forall in *. intros h Hh. specialize (IHF h Hh). destruct IHF as [H1 H2]. cbn [head_key].
      split; [eapply lex_trans; eassumption|]. intros E. apply NE. apply lex_antisym; [assumption|]. now rewrite E.
Qed.

(** ** Writing a level *)
Section Writing.
Context (enc : meta -> option N) (mk : line -> bytes).
Definition ser (q : qfeature) (bs : bytes) : Prop := serialize_feature enc mk false (qf_feat q) = Ok bs.

Lemma append_span_inv : forall g buf b, append_span enc mk buf g = Ok b ->
  exists bss, Forall2 ser g bss /\ Forall (fun s => 32 <= blen s) bss /\ b = buf ++ span_bytes bss.
Proof.
  induction g as [|q g IH]; intros buf b H; cbn [append_span] in H.
  - apply Ok_inj in H. subst. exists []. repeat split; constructor.
  - apply bind_ok in H. destruct H as (s & S & H). apply bind_ok in H. destruct H as (buf' & A & H).
    unfold append_feature in A. apply bind_ok in A. destruct A as ([] & V & A). apply verify_ok in V. apply Ok_inj in A. subst buf'.
    apply IH in H. destruct H as (bss & F & HL & ->). exists (s :: bss).
    split; [constructor; assumption|]. split; [constructor; [lia | assumption]|].
    unfold span_bytes. cbn [flat_map]. now rewrite <- !app_assoc.
Qed.

End Writing.

(** one index entry with the features of its span and their bytes *)
Record item := Item { it_e : quad_input; it_g : list qfeature; it_b : list bytes }.
Definition item_tile (i : item) : tile := qi_tile (it_e i).
Definition item_ok (enc : meta -> option N) (mk : line -> bytes) (i : item) : Prop :=
  Forall2 (ser enc mk) (it_g i) (it_b i) /\ Forall (fun s => 32 <= blen s) (it_b i) /\ qi_size (it_e i) = 1 /\
  match it_g i with [] => False | x :: _ => qi_tile (it_e i) = qf_tile x end.
Definition items_bytes (l : list item) : bytes := flat_map (fun i => span_bytes (it_b i)) l.
(** offsets are where the bytes are *)
Fixpoint placed (p : N) (l : list item) : Prop :=
  match l with
  | [] => True
  | i :: l' => qi_off (it_e i) = p mod 2 ^ 32 /\ placed (p + blen (span_bytes (it_b i))) l'
  end.

Lemma append_runs_inv enc mk : forall gs buf b es, append_runs enc mk buf gs = Ok (b, es) ->
  exists its, map it_g its = gs /\ map it_e its = es /\ Forall (item_ok enc mk) its /\ placed (blen buf) its /\ b = buf ++ items_bytes its.
Proof.
  induction gs as [|[|x g] gs IH]; intros buf b es H; cbn [append_runs] in H; [| discriminate |].
  - apply Ok_inj in H. injection H as <- <-. exists []. cbn. rewrite app_nil_r. repeat split. constructor.
  - apply bind_ok in H. destruct H as (buf' & A & H). apply bind_ok in H. destruct H as ([buf'' es'] & R & H).
    apply Ok_inj in H. injection H as <- <-.
    apply append_span_inv in A. destruct A as (bss & F & HL & ->).
    apply IH in R. destruct R as (its & G & E & HI & HP & ->).
    exists (Item (QIn (qf_tile x) (blen buf mod 2 ^ 32) 1) (x :: g) bss :: its). cbn [map it_g it_e].
    split; [now f_equal|]. split; [now f_equal|].
    split; [constructor; [repeat split; assumption | assumption]|].
    split; [cbn [placed it_e it_b qi_off]; rewrite blen_app in HP; split; [reflexivity | assumption]|].
    unfold items_bytes. cbn [flat_map it_b]. now rewrite <- !app_assoc.
Qed.

(** ** Reading runs *)
Lemma read_run_ok fs rest : Forall (fun s => 0 < blen s < 2 ^ 64) fs -> forall fuel, (length fs < fuel)%nat ->
  read_run fuel (span_bytes fs ++ rest) = Ok (fs, rest).
Proof.
  unfold span_bytes. induction 1 as [|f fs Hf HF IH]; intros fuel Hfu; (destruct fuel as [|fuel]; [lia|]); cbn [length] in Hfu.
  - cbn [flat_map app]. rewrite varint_zero. reflexivity.
  - cbn [flat_map read_run]. rewrite <- !app_assoc. rewrite varint_roundtrip by lia. cbn [bind].
    replace (blen f =? 0) with false by lia. rewrite take_feature_app. cbn [bind].
    rewrite app_assoc. rewrite IH by lia. reflexivity.
Qed.

Lemma span_bytes_len fs : (length fs < length (span_bytes fs))%nat.
Proof.
  unfold span_bytes. rewrite app_length. change (length (varint_enc 0)) with 1%nat.
  assert (length fs <= length (flat_map (fun f => varint_enc (blen f) ++ f) fs))%nat; [|lia].
  induction fs as [|f fs IH]; [constructor|]. cbn [flat_map length]. rewrite !app_length. pose proof (varint_len_pos (blen f)). lia.
Qed.

Lemma read_runs_ok its rest : Forall (fun i => Forall (fun s => 0 < blen s < 2 ^ 64) (it_b i)) its ->
  read_runs (length its) (items_bytes its ++ rest) = Ok (flat_map it_b its).
Proof.
  induction 1 as [|i its Hi HF IH]; [reflexivity|]. cbn [length read_runs items_bytes flat_map]. fold (items_bytes its).
  rewrite <- app_assoc. rewrite read_run_ok; [|assumption|rewrite app_length; pose proof (span_bytes_len (it_b i)); lia].
  cbn [bind]. rewrite IH. reflexivity.
Qed.

(** ** One level: walking the tree and reading the spans *)
Definition lsb (l : list item) : N := blen (items_bytes l).

Lemma items_bytes_app a b : items_bytes (a ++ b) = items_bytes a ++ items_bytes b.
Proof. apply flat_map_app. Qed.

Lemma placed_app a : forall p b, placed p (a ++ b) <-> placed p a /\ placed (p + blen (items_bytes a)) b.
Proof.
  induction a as [|i a IH]; intros p b; cbn [app placed items_bytes flat_map].
  - rewrite N.add_0_r. tauto.
  - fold (items_bytes a). rewrite IH, blen_app, N.add_assoc. tauto.
Qed.

Lemma placed_offsets its : forall p, p + blen (items_bytes its) < 2 ^ 32 -> placed p its ->
  StronglySorted N.le (map (fun i => qi_off (it_e i)) its) /\ Forall (fun o => p <= o < 2 ^ 32) (map (fun i => qi_off (it_e i)) its).
Proof.
  induction its as [|i its IH]; intros p HB HP; [split; constructor|].
  cbn [placed items_bytes flat_map map] in *. fold (items_bytes its) in *. rewrite blen_app in HB. destruct HP as [E HP].
  rewrite N.mod_small in E by lia. apply IH in HP; [|lia]. destruct HP as [S F]. split.
  - constructor; [assumption|]. eapply Forall_impl; [|exact F]. cbn. intros; lia.
  - constructor; [lia|]. eapply Forall_impl; [|exact F]. cbn. intros; lia.
Qed.

Lemma sorted_parents_first root es : z_sorted root es -> Forall (fun e => covers root (qi_tile e)) es ->
  NoDup (map qi_tile es) -> StronglySorted N.le (map qi_off es) -> parents_first es.
Proof.
  intros HS HR HN HO e e' He He' HCov.
  destruct (in_split _ _ He) as (a & b & E). rewrite E in He'. rewrite in_app_iff in He'. cbn [In] in He'.
  rewrite Forall_forall in HR.
  destruct He' as [Ha | [<-|Hb]]; [|lia|].
  - exfalso. assert (HT : qi_tile e' = qi_tile e).
    { apply (zpath_inj root); [apply HR; rewrite E; auto with datatypes | apply HR, He |].
      apply lex_antisym.
      - rewrite E in HS. clear - HS Ha. induction a as [|x a IH]; [destruct Ha|]. cbn [app] in HS. inversion HS; subst.
        destruct Ha as [<-|Ha]; [|auto]. rewrite Forall_forall in H2. apply (H2 e), in_or_app. right. left. reflexivity.
      - apply covers_z_le; [apply HR, He | assumption]. }
    rewrite E, map_app in HN. cbn [map] in HN. apply NoDup_remove_2 in HN. apply HN. rewrite <- HT.
    apply in_or_app. left. now apply in_map.
  - rewrite E, map_app in HO. cbn [map] in HO. clear - HO Hb. induction a as [|x a IH]; cbn [map app] in HO; inversion HO; subst; [|auto].
    rewrite Forall_forall in H2. apply H2, in_map, Hb.
Qed.

Lemma map_filter {A B} (f : A -> B) (P : B -> bool) l : map f (filter (fun a => P (f a)) l) = filter P (map f l).
Proof. induction l as [|x l IH]; [reflexivity|]. cbn [map filter]. destruct (P (f x)); cbn [map]; now rewrite IH. Qed.
Lemma map_flat_map {A B C} (f : B -> C) (g : A -> list B) l : map f (flat_map g l) = flat_map (fun a => map f (g a)) l.
Proof. induction l as [|x l IH]; [reflexivity|]. cbn [flat_map]. now rewrite map_app, IH. Qed.

Lemma map_res_ok {A B} (f : A -> res B) (g : A -> B) l : (forall a, In a l -> f a = Ok (g a)) -> map_res f l = Ok (map g l).
Proof.
  induction l as [|a l IH]; intros H; [reflexivity|]. cbn [map_res map]. rewrite (H a) by auto with datatypes. cbn [bind].
  rewrite IH by (intros; apply H; auto with datatypes). reflexivity.
Qed.
Lemma map_res_app {A B} (f : A -> res B) a b : map_res f (a ++ b) = do x <- map_res f a; do y <- map_res f b; Ok (x ++ y).
Proof.
  induction a as [|x a IH]; cbn [app map_res bind]; [destruct (map_res f b); reflexivity|].
  destruct (f x); cbn [bind]; try reflexivity. rewrite IH. destruct (map_res f a); cbn [bind]; try reflexivity.
  destruct (map_res f b); reflexivity.
Qed.

Definition above_items (q : tile) (its : list item) : list item :=
  flat_map (fun z => filter (fun i => (tz (item_tile i) =? N.of_nat z) && coversb (item_tile i) q) its) (seq 0 (N.to_nat (tz q))).
Definition under_items (q : tile) (its : list item) : list item := filter (fun i => coversb q (item_tile i)) its.

Lemma above_items_e q its : map it_e (above_items q its) = above q (map it_e its).
Proof.
  unfold above_items, above. rewrite map_flat_map. apply flat_map_ext. intros z. unfold above_at.
  apply (map_filter it_e (fun e => (tz (qi_tile e) =? N.of_nat z) && coversb (qi_tile e) q)).
Qed.
Lemma under_items_e q its : map it_e (under_items q its) = under q (map it_e its).
Proof. apply (map_filter it_e (fun e => coversb q (qi_tile e))). Qed.

Lemma related_items q its : Permutation (above_items q its ++ under_items q its) (filter (fun i => relatedb (item_tile i) q) its).
Proof.
  unfold above_items. assert (HG : forall n, Permutation (flat_map (fun z => filter (fun i => (tz (item_tile i) =? N.of_nat z) && coversb (item_tile i) q) its) (seq 0 n))
     (filter (fun i => (tz (item_tile i) <? N.of_nat n) && coversb (item_tile i) q) its)).
  { induction n as [|n IH].
    - cbn [seq flat_map]. rewrite filter_all_false; [constructor|]. apply Forall_forall. intros e _. apply andb_false_iff. left. lia.
    - rewrite seq_S, flat_map_app. cbn [flat_map plus]. rewrite app_nil_r. rewrite IH. clear IH.
      induction its as [|e es IH]; [constructor|]. cbn [filter].
      destruct (coversb (item_tile e) q) eqn:EC; rewrite ?andb_true_r, ?andb_false_r; [|apply IH].
      destruct (N.ltb_spec (tz (item_tile e)) (N.of_nat n)) as [H|H].
      + replace (tz (item_tile e) =? N.of_nat n) with false by lia.
        replace (tz (item_tile e) <? N.of_nat (S n)) with true by lia. cbn [app]. now constructor.
      + destruct (N.eqb_spec (tz (item_tile e)) (N.of_nat n)).
        * replace (tz (item_tile e) <? N.of_nat (S n)) with true by lia.
          rewrite <- Permutation_middle. now constructor.
        * replace (tz (item_tile e) <? N.of_nat (S n)) with false by lia. apply IH. }
  rewrite HG. unfold under_items. rewrite Nnat.N2Nat.id. clear HG.
  induction its as [|e es IH]; [constructor|]. cbn [filter].
  unfold relatedb at 1. destruct (coversb q (item_tile e)) eqn:E1.
  - rewrite orb_true_r. apply coversb_spec in E1.
    replace ((tz (item_tile e) <? tz q) && coversb (item_tile e) q) with false by (destruct E1; lia).
    rewrite <- Permutation_middle. now constructor.
  - rewrite orb_false_r. destruct (coversb (item_tile e) q) eqn:E2.
    + destruct (N.ltb_spec (tz (item_tile e)) (tz q)) as [H|H]; cbn [andb app].
      * now constructor.
      * exfalso. apply coversb_spec in E2. assert (EE : item_tile e = q) by (apply covers_same_z; [assumption | destruct E2; lia]).
        rewrite EE, coversb_refl in E1. discriminate.
    + rewrite andb_false_r. apply IH.
Qed.

Lemma skip_to (B a b : bytes) p : B = a ++ b -> blen a = p -> p <=? blen B = true /\ skipn (N.to_nat p) B = b.
Proof.
  intros -> <-. rewrite blen_app. split; [lia|]. unfold blen. rewrite Nnat.Nat2N.id. apply skipn_app_exact.
Qed.

Lemma read_item_span B pre its post i p : B = pre ++ items_bytes its ++ post -> blen pre = p -> p + blen (items_bytes its) < 2 ^ 32 ->
  placed p its -> Forall (fun i => Forall (fun s => 0 < blen s < 2 ^ 64) (it_b i)) its -> In i its -> qi_size (it_e i) = 1 ->
  read_span B (qi_off (it_e i), qi_size (it_e i)) = Ok (it_b i).
Proof.
  intros HB Hp Hlt HP HF HI HS. destruct (in_split _ _ HI) as (a & b & E). subst its.
  rewrite placed_app in HP. cbn [placed] in HP. destruct HP as (_ & EO & _).
  rewrite items_bytes_app in *. rewrite blen_app in Hlt. cbn [items_bytes flat_map] in HB, Hlt. fold (items_bytes b) in HB, Hlt.
  rewrite N.mod_small in EO by lia. unfold read_span. cbn [fst snd]. rewrite HS, EO.
  destruct (skip_to B (pre ++ items_bytes a) (span_bytes (it_b i) ++ items_bytes b ++ post) (p + blen (items_bytes a))) as [-> ->].
  { rewrite HB. now rewrite <- !app_assoc. }
  { rewrite blen_app. lia. }
  change (N.to_nat 1) with (length [i]). rewrite <- (app_nil_r (span_bytes (it_b i))). change (span_bytes (it_b i) ++ []) with (items_bytes [i]).
  rewrite read_runs_ok.
  - cbn [flat_map]. now rewrite app_nil_r.
  - constructor; [|constructor]. rewrite Forall_forall in HF. apply HF, HI.
Qed.

Lemma total_size_ones es : Forall (fun e => qi_size e = 1) es -> total_size es = N.of_nat (length es).
Proof. unfold total_size. induction 1 as [|e es H HF IH]; [reflexivity|]. cbn [fold_right length]. lia. Qed.

Lemma min_off_head e es : StronglySorted N.le (map qi_off (e :: es)) -> qi_off e < 2 ^ 32 -> min_off (e :: es) = qi_off e.
Proof.
  intros HS HO. cbn [map] in HS. inversion HS as [|? ? _ HF]; subst. unfold min_off. cbn [fold_right]. fold (min_off es).
  assert (qi_off e <= min_off es); [|lia]. clear - HF HO.
  induction es as [|x es IH]; unfold min_off; cbn [fold_right map] in *; [lia|]. fold (min_off es). inversion HF; subst. specialize (IH H2). lia.
Qed.

Lemma level_walk enc mk root B its pre post t pre2 post2 q p :
  B = pre ++ items_bytes its ++ post -> blen pre = p -> blen B < 2 ^ 30 ->
  placed p its -> Forall (item_ok enc mk) its -> Forall (fun i => covers root (item_tile i) /\ tz (item_tile i) <= 20) its ->
  StronglySorted (fun i j => z_le root (item_tile i) (item_tile j)) its -> NoDup (map item_tile its) ->
  make_quad_tree root (map it_e its) = Ok t -> B = pre2 ++ t ++ post2 -> tz root <= 20 -> tz q <= 20 ->
  (do spans <- walk_quad_tree (t ++ post2) root q; do ls <- map_res (read_span B) spans; Ok (concat ls))
  = Ok (flat_map it_b (above_items q its ++ under_items q its)).
Proof.
  intros HB Hp HL HP HI HC HS HN HM HB2 Hrz Hqz.
  set (es := map it_e its) in *.
  assert (HBL : p + blen (items_bytes its) < 2 ^ 32 /\ blen (items_bytes its) < 2 ^ 30).
  { rewrite HB, !blen_app in HL. lia. }
  destruct HBL as [HBL HBI].
  destruct (placed_offsets its p HBL HP) as [HO1 HO2].
  assert (EO : map (fun i => qi_off (it_e i)) its = map qi_off es) by (unfold es; now rewrite map_map).
  rewrite EO in HO1, HO2.
  assert (Hsz : Forall (fun e => qi_size e = 1) es).
  { unfold es. rewrite Forall_map. eapply Forall_impl; [|exact HI]. intros i (_ & _ & Hs & _). exact Hs. }
  assert (Hlen : N.of_nat (length its) <= blen (items_bytes its)).
  { clear. induction its as [|i its IH]; [cbn; lia|]. cbn [length items_bytes flat_map]. fold (items_bytes its). rewrite blen_app.
    pose proof (span_bytes_len (it_b i)). unfold blen at 1. lia. }
  assert (ENt : map qi_tile es = map item_tile its) by (unfold es; now rewrite map_map).
  assert (HR : Forall (fun e => covers root (qi_tile e)) es).
  { unfold es. rewrite Forall_map. eapply Forall_impl; [|exact HC]. intros i [H _]. exact H. }
  assert (HE : entries_ok es).
  { split; [now rewrite ENt|]. split.
    - rewrite Forall_map in HO2. rewrite Forall_forall in *. intros e He. specialize (HO2 e He). specialize (Hsz e He). split; [apply HO2|].
      split; [lia|]. unfold es in He. apply in_map_iff in He. destruct He as (i & <- & Hi). specialize (HC i Hi). unfold item_tile in HC. lia.
    - rewrite total_size_ones by assumption. unfold es. rewrite map_length. lia. }
  assert (HZ : z_sorted root es).
  { unfold es, z_sorted. clear - HS. induction HS as [|i l HS IH HF]; cbn [map]; constructor; [assumption|].
    rewrite Forall_map. exact HF. }
  assert (HPF : parents_first es).
  { apply (sorted_parents_first root); try assumption. now rewrite ENt. }
  assert (HBs : Forall (fun i => Forall (fun s => 0 < blen s < 2 ^ 64) (it_b i)) its).
  { rewrite Forall_forall in HI |- *. intros i Hi. specialize (HI i Hi). destruct HI as (_ & H32 & _).
    rewrite Forall_forall in H32 |- *. intros s Hs. specialize (H32 s Hs). split; [lia|].
    assert (blen s <= blen (items_bytes its)); [|lia].
    destruct (in_split _ _ Hi) as (a & b & ->). rewrite items_bytes_app, blen_app. cbn [items_bytes flat_map]. rewrite blen_app.
    unfold span_bytes. rewrite blen_app. destruct (in_split _ _ Hs) as (c & d & ->). rewrite flat_map_app, blen_app. cbn [flat_map]. rewrite !blen_app. lia. }
  rewrite (walk_exact root es t post2 q HE HPF) by (try assumption; try lia; rewrite HB2, !blen_app in HL; lia).
  cbn [bind]. unfold walk_spec. rewrite map_res_app.
  unfold es at 1. rewrite <- above_items_e, map_map. fold es.
  assert (HA : map_res (read_span B) (map (fun x => (qi_off (it_e x), qi_size (it_e x))) (above_items q its)) = Ok (map it_b (above_items q its))).
  { assert (HIn : forall i, In i (above_items q its) -> In i its).
    { intros i Hi. apply in_flat_map in Hi. destruct Hi as (z & _ & Hi). apply filter_In in Hi. apply Hi. }
    clear - HIn HB Hp HBL HP HBs HI. induction (above_items q its) as [|i l IH]; [reflexivity|]. cbn [map map_res].
    rewrite Forall_forall in HI. rewrite (read_item_span B pre its post i p); auto with datatypes.
    - cbn [bind]. rewrite IH by (intros; apply HIn; auto with datatypes). reflexivity.
    - apply HI. apply HIn. left. reflexivity. }
  rewrite HA. cbn [bind].
  assert (HU : map_res (read_span B) (match under q es with [] => [] | l => [(min_off l, total_size l)] end)
    = Ok (match under_items q its with [] => [] | _ => [flat_map it_b (under_items q its)] end)).
  { unfold es. rewrite <- under_items_e. fold es.
    destruct (convex_contiguous (fun i j => z_le root (item_tile i) (item_tile j)) (fun i => coversb q (item_tile i)) its HS) as (a & b & E & _).
    { intros x y z Ix Iy Iz Rxy Ryz Px Pz. rewrite coversb_spec in *. rewrite Forall_forall in HC.
      destruct (related_or_not root q (item_tile x) (proj1 (HC x Ix)) Px) as [Hq|Hq].
      + apply coversb_spec. apply coversb_spec in Px, Pz.
        rewrite <- (zpath_prefix root) in * by (auto; apply HC; assumption). eapply lex_convex; eauto.
      + eapply covers_trans; [eassumption | apply HC, Iy]. }
    fold (under_items q its) in E.
    destruct (under_items q its) as [|u us] eqn:EU; [reflexivity|]. rewrite <- EU in *.
    assert (EM : match map it_e (under_items q its) with [] => [] | l => [(min_off l, total_size l)] end =
                 [(qi_off (it_e u), N.of_nat (length (under_items q its)))]).
    { rewrite EU. cbn [map]. rewrite <- (min_off_head (it_e u) (map it_e us)).
      - rewrite total_size_ones; [cbn [length]; rewrite map_length; reflexivity|].
        change (it_e u :: map it_e us) with (map it_e (u :: us)). rewrite <- EU. unfold under_items. rewrite Forall_map.
        apply Forall_forall. intros i Hi. apply filter_In in Hi. rewrite Forall_forall in HI. apply (HI i), Hi.
      - change (it_e u :: map it_e us) with (map it_e (u :: us)). rewrite <- EU.
        rewrite <- EO in HO1. rewrite E, !map_app in HO1. rewrite map_map.
        clear - HO1. induction a as [|x a IH]; cbn [map app] in HO1; [|inversion HO1; auto].
        induction (under_items q its) as [|x l IH]; cbn [map app] in *; [constructor|]. inversion HO1; subst.
        constructor; [apply IH, H1|]. apply Forall_app in H2. apply H2.
      - rewrite <- EO in HO2. rewrite Forall_map, Forall_forall in HO2. apply HO2. rewrite E, EU. apply in_or_app. right. left. reflexivity. }
    match goal with |- map_res _ ?x = _ => replace x with [(qi_off (it_e u), N.of_nat (length (under_items q its)))] by (symmetry; exact EM) end.
    cbn [map_res]. unfold read_span. cbn [fst snd].
    assert (EOu : qi_off (it_e u) = p + blen (items_bytes a)).
    { rewrite E, placed_app, EU in HP. cbn [placed app] in HP. destruct HP as (_ & -> & _). apply N.mod_small.
      rewrite E, items_bytes_app, blen_app in HBL. lia. }
    rewrite EOu.
    destruct (skip_to B (pre ++ items_bytes a) (items_bytes (under_items q its) ++ items_bytes b ++ post) (p + blen (items_bytes a))) as [-> ->].
    { rewrite HB. rewrite E at 1. rewrite !items_bytes_app. now rewrite <- !app_assoc. }
    { rewrite blen_app. lia. }
    rewrite Nnat.Nat2N.id, read_runs_ok; [reflexivity|].
    unfold under_items. apply Forall_forall. intros i Hi. apply filter_In in Hi. rewrite Forall_forall in HBs. apply HBs, Hi. }
  match goal with |- context [map_res (read_span B) ?x] => replace (map_res (read_span B) x) with (Ok (match under_items q its with [] => [] | _ => [flat_map it_b (under_items q its)] end)) by (symmetry; exact HU) end.
  cbn [bind]. f_equal. rewrite concat_app, flat_map_app. f_equal.
  - symmetry. apply flat_map_concat_map.
  - destruct (under_items q its); [reflexivity|]. cbn [concat]. apply app_nil_r.
Qed.
