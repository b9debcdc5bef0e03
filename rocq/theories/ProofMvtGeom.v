From Verif Require Import Base BaseProof ModelTile ModelCodec ProofCodec ModelGeom SpecGeom ProofGeom ProofShift
  ModelFeature ModelMvt SpecMvt.
Open Scope N_scope.

Notation rings := poly_rings.

Definition near (o p : pt) : Prop := (Z.abs (fst p - fst o) < 2 ^ 30 /\ Z.abs (snd p - snd o) < 2 ^ 30)%Z.

Lemma zigzag32_small d : (Z.abs d < 2 ^ 31)%Z -> zigzag32 d = zigzag d /\ zigzag32 d < 2 ^ 32.
Proof.
  intros H. assert (E : to_i32 d = d).
  { unfold to_i32. destruct (Z.ltb_spec (d mod 2 ^ 32) (2 ^ 31)); lia. }
  unfold zigzag32. rewrite E. split; [reflexivity|].
  unfold zigzag. destruct (0 <=? d)%Z eqn:E2; lia.
Qed.

Lemma zigzag32_lt d : zigzag32 d < 2 ^ 32.
Proof.
  unfold zigzag32. assert (- 2 ^ 31 <= to_i32 d < 2 ^ 31)%Z.
  { unfold to_i32. destruct (Z.ltb_spec (d mod 2 ^ 32) (2 ^ 31)); lia. }
  unfold zigzag. destruct (0 <=? to_i32 d)%Z eqn:E; lia.
Qed.

Lemma command_value cmd n : cmd < 8 -> n < 2 ^ 29 -> encode_command cmd n = cmd + n * 8.
Proof.
  intros H1 H2. unfold encode_command. change 7 with (N.ones 3). rewrite N.land_ones.
  change (2 ^ 3) with 8. rewrite (N.mod_small cmd 8) by assumption.
  rewrite (N.mod_small n) by lia. rewrite N.shiftl_mul_pow2. change (2 ^ 3) with 8.
  rewrite N.mod_small by lia. apply lor_add with (k := 3); [exact H1|]. change (2 ^ 3) with 8. lia.
Qed.

Lemma command_lt cmd n : encode_command cmd n < 2 ^ 32.
Proof.
  unfold encode_command. change 7 with (N.ones 3). rewrite N.land_ones.
  set (m := n mod 2 ^ 32). rewrite N.shiftl_mul_pow2. change (2 ^ 3) with 8.
  rewrite (lor_add _ _ 3); change (2 ^ 3) with 8; lia.
Qed.

Definition mk_cmd (cmd : N) (p : pt) : pcmd := if cmd =? 1 then PMove p else PLine p.

Lemma run_zero cmd c l : run_commands cmd 0 c l = run_commands 0 0 c l.
Proof. destruct l; reflexivity. Qed.

Lemma option_map_app {A} (a b : list A) o :
  option_map (app a) (option_map (app b) o) = option_map (app (a ++ b)) o.
Proof. destruct o; cbn; [now rewrite app_assoc | reflexivity]. Qed.

Lemma encode_deltas_run chk cmd o ps : forall c r c' rest,
  near o c -> Forall (near o) ps ->
  encode_deltas chk c ps = Ok (r, c') ->
  near o c' /\ Forall (fun v => v < 2 ^ 32) r /\ (length ps <= length r)%nat /\
  run_commands cmd (N.of_nat (length ps)) (rel o c) (r ++ rest) =
  option_map (app (map (fun p => mk_cmd cmd (rel o p)) ps)) (run_commands 0 0 (rel o c') rest).
Proof.
  induction ps as [|p ps IH]; intros c r c' rest Hc Hp H; cbn [encode_deltas] in H.
  - apply Ok_inj in H. injection H as <- <-. cbn [app map length].
    split; [assumption|]. split; [constructor|]. split; [lia|].
    change (N.of_nat 0) with 0. rewrite run_zero. now destruct (run_commands 0 0 (rel o c) rest).
  - inversion Hp as [|? ? Hp1 Hp2]; subst.
    apply bind_ok in H as (dx & E1 & H). apply bind_ok in H as (dy & E2 & H).
    apply bind_ok in H as ([] & E3 & H). apply bind_ok in H as ([r1 c1] & E4 & H).
    apply Ok_inj in H. injection H as <- <-.
    apply sub64_ok in E1 as [-> _]. apply sub64_ok in E2 as [-> _].
    unfold near in Hc, Hp1.
    destruct (zigzag32_small (fst p - fst c)) as [Z1 Z2]; [lia|].
    destruct (zigzag32_small (snd p - snd c)) as [Z3 Z4]; [lia|].
    specialize (IH p r1 c1 rest Hp1 Hp2 E4) as (I1 & I2 & I3 & I4).
    split; [assumption|]. split; [|split].
    + constructor; [assumption|]. constructor; assumption.
    + cbn [length]. lia.
    + cbn [app run_commands length].
      replace (N.of_nat (S (length ps)) =? 0) with false by lia.
      replace (N.of_nat (S (length ps)) - 1) with (N.of_nat (length ps)) by lia.
      rewrite Z1, Z3, !zigzag_roundtrip.
      replace ((fst (rel o c) + (fst p - fst c))%Z, (snd (rel o c) + (snd p - snd c))%Z) with (rel o p)
        by (unfold rel; cbn [fst snd]; f_equal; lia).
      rewrite I4. cbn [map]. change (if cmd =? 1 then PMove (rel o p) else PLine (rel o p)) with (mk_cmd cmd (rel o p)).
      destruct (run_commands 0 0 (rel o c1) rest); reflexivity.
Qed.

Lemma run_cmd_step id n c l : (id = 1 \/ id = 2) -> 0 < n -> n < 2 ^ 29 ->
  run_commands 0 0 c (encode_command id n :: l) = run_commands id n c l.
Proof.
  intros Hid H1 H2. rewrite command_value by lia. cbn [run_commands N.eqb].
  replace ((id + n * 8) mod 8) with id by lia. replace ((id + n * 8) / 8) with n by lia.
  replace (id =? 7) with false by lia. cbn [andb].
  replace ((id =? 1) || (id =? 2)) with true by lia. replace (n =? 0) with false by lia. reflexivity.
Qed.

Lemma run_close c l : run_commands 0 0 c (encode_command CLOSE_PATH 1 :: l) = option_map (cons PClose) (run_commands 0 0 c l).
Proof. reflexivity. Qed.

Definition drawn_pts (close : bool) (l : line) : list pt := if close then removelast l else l.
Definition path_cmds (close : bool) (o : pt) (l : line) : list pcmd :=
  match map (rel o) (drawn_pts close l) with
  | [] => []
  | p :: q => PMove p :: map PLine q ++ (if close then [PClose] else [])
  end.

Definition path_ok (close : bool) (l : line) : Prop :=
  ((if close then 3 else 2) <= length l)%nat.

Lemma firstn_removelast {A} (l : list A) : firstn (length l - 1) l = removelast l.
Proof. rewrite removelast_firstn_len. f_equal. lia. Qed.

Lemma Forall_firstn {A} (P : A -> Prop) n l : Forall P l -> Forall P (firstn n l).
Proof.
  intros H. revert n. induction H as [|a l Ha Hl IH]; intros [|n]; cbn [firstn]; try constructor; auto.
Qed.

Lemma encode_path_run close o l : forall c r c' rest,
  near o c -> Forall (near o) l -> path_ok close l ->
  encode_path close c l = Ok (r, c') -> N.of_nat (length r) < 2 ^ 29 ->
  near o c' /\ Forall (fun v => v < 2 ^ 32) r /\
  run_commands 0 0 (rel o c) (r ++ rest) = option_map (app (path_cmds close o l)) (run_commands 0 0 (rel o c') rest).
Proof.
  intros c r c' rest Hc Hl Hok H Hlen. unfold encode_path in H.
  apply bind_ok in H as ([] & Hv & H). apply bind_ok in H as ([r1 c1] & E1 & H).
  apply bind_ok in H as ([r2 c2] & E2 & H). apply Ok_inj in H. injection H as <- <-.
  destruct l as [|p l]; [cbn in Hv; discriminate|]. cbn [firstn skipn] in E1, E2.
  inversion Hl as [|? ? Hp Hl']; subst.
  set (limit := if close then (length (p :: l) - 2)%nat else (length (p :: l) - 1)%nat) in *.
  assert (Hlim : (1 <= limit <= length l)%nat) by (unfold limit, path_ok in *; destruct close; cbn [length] in *; lia).
  destruct (encode_deltas_run false 1 o [p] c r1 c1
    (encode_command LINE_TO (N.of_nat limit) :: r2 ++ (if close then [encode_command CLOSE_PATH 1] else []) ++ rest))
    as (A1 & A2 & _ & A4); try assumption. { constructor; [assumption | constructor]. }
  assert (HF : Forall (near o) (firstn limit l)).
  { now apply Forall_firstn. }
  destruct (encode_deltas_run true 2 o (firstn limit l) c1 r2 c2
    ((if close then [encode_command CLOSE_PATH 1] else []) ++ rest)) as (B1 & B2 & B3 & B4); try assumption.
  assert (Hfl : length (firstn limit l) = limit) by (rewrite firstn_length; lia).
  rewrite Hfl in *.
  assert (Hlim2 : N.of_nat limit < 2 ^ 29).
  { cbn [length] in Hlen. rewrite !app_length in Hlen. cbn [length] in Hlen. rewrite app_length in Hlen. lia. }
  split; [assumption|]. split.
  { constructor; [apply command_lt|]. apply Forall_app; split; [assumption|].
    constructor; [apply command_lt|]. apply Forall_app; split; [assumption|].
    destruct close; constructor; [apply command_lt | constructor]. }
  rewrite <- app_comm_cons. rewrite run_cmd_step; [|auto| lia | lia].
  rewrite <- app_assoc, <- app_comm_cons, <- app_assoc.
  change (N.of_nat (length [p])) with 1 in A4. unfold MOVE_TO. rewrite A4.
  rewrite run_cmd_step; [|auto| lia | lia].
  unfold LINE_TO. rewrite B4. cbn [map].
  replace (run_commands 0 0 (rel o c2) ((if close then [encode_command CLOSE_PATH 1] else []) ++ rest))
    with (option_map (app (if close then [PClose] else [])) (run_commands 0 0 (rel o c2) rest)).
  2:{ destruct close; cbn [app]; [rewrite run_close|]; now destruct (run_commands 0 0 (rel o c2) rest). }
  rewrite !option_map_app. f_equal. f_equal.
  unfold path_cmds, drawn_pts. unfold mk_cmd. cbn [N.eqb Pos.eqb app].
  destruct close.
  - assert (Hl2 : firstn limit l = removelast l).
    { rewrite <- firstn_removelast. f_equal. }
    rewrite Hl2. destruct l as [|q l]; [cbn [length] in *; lia|].
    change (removelast (p :: q :: l)) with (p :: removelast (q :: l)).
    cbn [map]. now rewrite map_map.
  - cbn [map]. f_equal. rewrite map_map. f_equal. f_equal. unfold limit. cbn [length].
    rewrite firstn_all2 by lia. reflexivity.
Qed.

Lemma encode_paths_run close o ls : forall c r c' rest,
  near o c -> Forall (Forall (near o)) ls -> Forall (path_ok close) ls ->
  encode_paths close c ls = Ok (r, c') -> N.of_nat (length r) < 2 ^ 29 ->
  near o c' /\ Forall (fun v => v < 2 ^ 32) r /\
  run_commands 0 0 (rel o c) (r ++ rest) = option_map (app (flat_map (path_cmds close o) ls)) (run_commands 0 0 (rel o c') rest).
Proof.
  induction ls as [|l ls IH]; intros c r c' rest Hc Hl Hok H Hlen; cbn [encode_paths] in H.
  - apply Ok_inj in H. injection H as <- <-. cbn [app flat_map].
    split; [assumption|]. split; [constructor|]. now destruct (run_commands 0 0 (rel o c) rest).
  - apply bind_ok in H as ([r1 c1] & E1 & H). apply bind_ok in H as ([r2 c2] & E2 & H).
    apply Ok_inj in H. injection H as <- <-.
    inversion Hl; inversion Hok; subst. rewrite app_length in Hlen.
    destruct (encode_path_run close o l c r1 c1 (r2 ++ rest)) as (A1 & A2 & A3); try assumption; [lia|].
    destruct (IH c1 r2 c2 rest) as (B1 & B2 & B3); try assumption; [lia|].
    split; [assumption|]. split; [now apply Forall_app|].
    rewrite <- app_assoc, A3, B3, option_map_app. reflexivity.
Qed.

(** grouping *)
Lemma group_points_ok l : group_points (map PMove l) = Some l.
Proof.
  unfold group_points. induction l as [|p l IH]; [reflexivity|]. cbn [map all_some]. now rewrite IH.
Qed.

Lemma group_lines_tail q l : group_lines_from (map PLine q ++ l) =
  obind (group_lines_from l) (fun '(q', d) => Some (q ++ q', d)).
Proof.
  induction q as [|p q IH]; cbn [map app group_lines_from].
  - destruct (group_lines_from l) as [[? ?]|]; reflexivity.
  - rewrite IH. destruct (group_lines_from l) as [[? ?]|]; reflexivity.
Qed.

Lemma group_lines_ok o ls : Forall (path_ok false) ls ->
  group_lines (flat_map (path_cmds false o) ls) = Some (map (map (rel o)) ls).
Proof.
  intros H. unfold group_lines.
  assert (E : group_lines_from (flat_map (path_cmds false o) ls) = Some ([], map (map (rel o)) ls)).
  { induction H as [|l ls Hl H IH]; [reflexivity|]. cbn [flat_map map].
    unfold path_cmds at 1. unfold drawn_pts. unfold path_ok in Hl.
    destruct l as [|a [|b l]]; cbn [length] in Hl; [lia..|]. cbn [map]. rewrite app_nil_r.
    rewrite <- app_comm_cons. cbn [group_lines_from].
    change (PLine (rel o b) :: map PLine (map (rel o) l)) with (map PLine (map (rel o) (b :: l))).
    rewrite group_lines_tail, IH. cbn [obind map app]. now rewrite app_nil_r. }
  rewrite E. reflexivity.
Qed.

Lemma group_rings_tail n q l d : group_rings_from n l = Some (None, d) ->
  group_rings_from n (map PLine q ++ PClose :: l) = Some (Some q, d).
Proof.
  intros E. induction q as [|p q IH]; cbn [map app group_rings_from].
  - now rewrite E.
  - now rewrite IH.
Qed.

Lemma group_rings_ok n o ls : Forall closed_ring ls -> Forall (fun l => (n + 2 <= length l)%nat) ls ->
  group_rings n (flat_map (path_cmds true o) ls) = Some (map (map (rel o)) ls).
Proof.
  intros Hc Hn. unfold group_rings.
  assert (E : group_rings_from n (flat_map (path_cmds true o) ls) = Some (None, map (map (rel o)) ls)).
  { induction Hc as [|l ls Hl Hc IH]; [reflexivity|]. inversion Hn; subst. cbn [flat_map map].
    destruct Hl as (p & q & ->). unfold path_cmds at 1, drawn_pts.
    change (p :: q ++ [p]) with ((p :: q) ++ [p]). rewrite removelast_last. cbn [map].
    rewrite <- app_comm_cons. cbn [group_rings_from].
    rewrite <- app_assoc. cbn [app].
    rewrite (group_rings_tail n _ _ _ (IH H2)). cbn [obind].
    cbn [length] in H1. rewrite app_length in H1. cbn [length] in H1.
    rewrite map_length. replace (n <=? length q)%nat with true by lia.
    cbn [map]. rewrite map_app. reflexivity. }
  rewrite E. reflexivity.
Qed.

(** packed integers *)
Lemma unpack_flat vs : forall fuel, Forall (fun v => v < 2 ^ 32) vs ->
  (length vs <= fuel)%nat -> unpack_f fuel (flat_map varint_enc vs) = Some vs.
Proof.
  induction vs as [|v vs IH]; intros fuel H Hf; [destruct fuel; reflexivity|].
  inversion H; subst. cbn [length] in Hf. destruct fuel as [|f]; [lia|]. cbn [flat_map].
  destruct (varint_nonempty v) as (b & l & E). rewrite E.
  cbn [app]. unfold unpack_f; fold unpack_f. rewrite app_comm_cons, <- E.
  rewrite varint_roundtrip by lia. rewrite IH by (assumption || lia). cbn [option_map].
  rewrite N.mod_small by assumption. reflexivity.
Qed.

Lemma flat_varint_len vs : (length vs <= length (flat_map varint_enc vs))%nat.
Proof.
  induction vs as [|v vs IH]; cbn [flat_map length]; [lia|]. rewrite app_length.
  pose proof (varint_len_pos v). lia.
Qed.

Lemma unpack_ok vs : Forall (fun v => v < 2 ^ 32) vs -> unpack_u32 (flat_map varint_enc vs) = Some vs.
Proof. intros H. apply unpack_flat; [assumption|]. apply flat_varint_len. Qed.

(** messages as lists of fields *)
Definition enc_field (f : N * wire) : bytes :=
  match snd f with
  | WInt n => field_varint (fst f) n
  | WLen b => field_bytes (fst f) b
  | WFix64 b => field_double (fst f) b
  | WFix32 b => field_key (fst f) WT_I32 ++ b
  end.
Definition wire_ok (f : N * wire) : Prop :=
  tag_ok (fst f) = true /\
  match snd f with
  | WInt n => n < 2 ^ 64
  | WLen b => blen b < 2 ^ 32
  | WFix64 b => length b = 8%nat
  | WFix32 b => length b = 4%nat
  end.
Definition enc_msg (m : list (N * wire)) : bytes := flat_map enc_field m.

Lemma enc_field_pos f : (1 <= length (enc_field f))%nat.
Proof.
  destruct f as [t w]. unfold enc_field. cbn [snd fst].
  destruct w; unfold field_varint, field_bytes, field_double, field_key; rewrite app_length;
    match goal with |- context [length (varint_enc (?a * 8 + ?b))] => pose proof (varint_len_pos (a * 8 + b)) end; lia.
Qed.

Lemma parse_fields_enc m : forall fuel, Forall wire_ok m -> (length m < fuel)%nat ->
  parse_fields fuel (enc_msg m) = Ok m.
Proof.
  induction m as [|[t w] m IH]; intros fuel H Hf.
  - destruct fuel as [|f]; [lia|]. reflexivity.
  - destruct fuel as [|f]; [lia|]. inversion H as [|? ? [Ht Hw] Hm]; subst. cbn [fst snd] in *.
    cbn [length] in Hf. unfold enc_msg. cbn [flat_map]. fold (enc_msg m).
    cbn [parse_fields]. unfold enc_field. cbn [fst snd].
    destruct w as [n|b|b|b].
    + rewrite next_field_varint by assumption. cbn [bind].
      rewrite varint_roundtrip by assumption. cbn [bind WT_VARINT N.eqb].
      rewrite IH by (assumption || lia). reflexivity.
    + rewrite next_field_bytes by assumption. cbn [bind]. cbn [WT_LEN WT_VARINT N.eqb Pos.eqb].
      change 2 with WT_LEN. rewrite get_len_enc by assumption. cbn [bind].
      rewrite IH by (assumption || lia). reflexivity.
    + unfold field_double. rewrite <- app_assoc, next_field_enc by (assumption || reflexivity). cbn [bind].
      cbn [WT_LEN WT_VARINT WT_I64 N.eqb Pos.eqb].
      replace (8 <=? blen (b ++ enc_msg m)) with true by (rewrite blen_app; unfold blen; lia).
      cbn [verify bind]. rewrite <- Hw, firstn_app_exact, skipn_app_exact, IH by (assumption || lia). reflexivity.
    + rewrite <- app_assoc, next_field_enc by (assumption || reflexivity). cbn [bind].
      cbn [WT_LEN WT_VARINT WT_I64 WT_I32 N.eqb Pos.eqb].
      replace (4 <=? blen (b ++ enc_msg m)) with true by (rewrite blen_app; unfold blen; lia).
      cbn [verify bind]. rewrite <- Hw, firstn_app_exact, skipn_app_exact, IH by (assumption || lia). reflexivity.
Qed.

Lemma enc_msg_len m : (length m <= length (enc_msg m))%nat.
Proof.
  induction m as [|f m IH]; [cbn; lia|]. unfold enc_msg. cbn [flat_map length]. rewrite app_length.
  fold (enc_msg m). pose proof (enc_field_pos f). lia.
Qed.

Lemma parse_msg_enc m : Forall wire_ok m -> parse_msg (enc_msg m) = Some m.
Proof.
  intros H. unfold parse_msg. rewrite parse_fields_enc; [reflexivity|assumption|].
  pose proof (enc_msg_len m). lia.
Qed.

Lemma enc_msg_app a b : enc_msg (a ++ b) = enc_msg a ++ enc_msg b.
Proof. apply flat_map_app. Qed.

(** encode_geometry as fields *)
Definition geom_type (g : geom) : N := match g with GNull => 0 | GPoint _ => 1 | GLine _ => 2 | GPoly _ => 3 end.
Definition mvt_ok (g : geom) : Prop :=
  match g with
  | GNull => False
  | GPoint ps => ps <> []
  | GLine ls => ls <> [] /\ Forall (path_ok false) ls
  | GPoly ps => ps <> [] /\ Forall (path_ok true) (rings ps)
  end.


Lemma Forall_geom_rings (P : pt -> Prop) ps :
  Forall P (geom_points (GPoly ps)) -> Forall (Forall P) (rings ps).
Proof.
  cbn [geom_points]. intros H. unfold poly_rings. induction ps as [|p ps IH]; cbn [flat_map]; [constructor|].
  cbn [flat_map] in H. apply Forall_app in H as [H1 H2]. apply Forall_app in H1 as [H0 H1].
  apply Forall_app. split; [constructor; [assumption|] | now apply IH].
  now apply Forall_concat_in.
Qed.

Lemma field_packed_cons tag v vs : field_packed_u64 tag (v :: vs) = field_bytes tag (flat_map varint_enc (v :: vs)).
Proof. reflexivity. Qed.

Lemma encode_paths_nonempty close c ls r c' : ls <> [] -> encode_paths close c ls = Ok (r, c') -> exists v vs, r = v :: vs.
Proof.
  destruct ls as [|l ls]; [congruence|]. intros _ H. cbn [encode_paths] in H.
  apply bind_ok in H as ([r1 c1] & E1 & H). apply bind_ok in H as ([r2 c2] & E2 & H).
  apply Ok_inj in H. injection H as <- <-. unfold encode_path in E1.
  apply bind_ok in E1 as ([] & _ & E1). apply bind_ok in E1 as ([? ?] & _ & E1).
  apply bind_ok in E1 as ([? ?] & _ & E1). apply Ok_inj in E1. injection E1 as <- <-.
  cbn [app]. eauto.
Qed.

Lemma rings_nonempty ps : ps <> [] -> rings ps <> [].
Proof. destruct ps; [congruence|]. intros _ H. discriminate H. Qed.

Lemma encode_geometry_fields spec g bs least :
  let o := (bminx (px_bounds spec), bminy (px_bounds spec)) in
  encode_geometry spec g = Ok bs -> blen bs < 2 ^ 29 ->
  mvt_ok g -> Forall (near o) (geom_points g) -> rings_closed g ->
  (match g with GPoly ps => Forall (fun l => (least + 2 <= length l)%nat) (rings ps) | _ => True end) ->
  exists cmds v, bs = enc_msg [(3, WInt (geom_type g)); (4, WLen (flat_map varint_enc cmds))] /\
    Forall (fun v => v < 2 ^ 32) cmds /\
    relative_geom o g = Some v /\ decode_geometry least (geom_type g) cmds = Some v.
Proof.
  intros o H Hlen Hok Hnear Hcl Hleast.
  assert (H0 : near o o) by (unfold near; lia).
  assert (Hr : rel o o = (0, 0)%Z) by (unfold rel; f_equal; lia).
  destruct g as [|ps|ls|ps]; cbn [mvt_ok] in Hok; [contradiction|..]; cbn [encode_geometry] in H;
    cbn [geom_type relative_geom geom_points] in *; fold o in H.
  - apply bind_ok in H as ([r c'] & E & H). apply Ok_inj in H. subst bs.
    rewrite field_packed_cons in *. set (cmds := encode_command MOVE_TO (N.of_nat (length ps)) :: r) in *.
    assert (Hb : blen (flat_map varint_enc cmds) < 2 ^ 29).
    { eapply N.le_lt_trans; [|exact Hlen]. rewrite blen_app.
      pose proof (field_bytes_len MF_GEOMETRY (flat_map varint_enc cmds)). lia. }
    destruct (encode_deltas_run false 1 o ps o r c' []) as (A1 & A2 & A3 & A4); try assumption.
    exists cmds, (VPoints (map (rel o) ps)). split.
    { unfold enc_msg. cbn [flat_map enc_field fst snd]. now rewrite app_nil_r. }
    split. { constructor; [apply command_lt | assumption]. }
    split; [reflexivity|].
    assert (N.of_nat (length ps) < 2 ^ 29).
    { pose proof (flat_varint_len cmds). unfold cmds at 1 in H. cbn [length] in H. unfold blen in Hb. lia. }
    unfold decode_geometry, cmds, MOVE_TO. rewrite run_cmd_step; [|auto|destruct ps; [congruence|cbn [length]; lia]|assumption].
    rewrite <- Hr. rewrite app_nil_r in A4. rewrite A4. cbn [run_commands N.eqb option_map obind].
    rewrite app_nil_r. unfold mk_cmd. cbn [N.eqb Pos.eqb].
    rewrite <- (map_map (rel o) PMove), group_points_ok. reflexivity.
  - apply bind_ok in H as ([r c'] & E & H). apply Ok_inj in H. subst bs.
    destruct Hok as [Hne Hok]. destruct (encode_paths_nonempty _ _ _ _ _ Hne E) as (v & vs & ->).
    rewrite field_packed_cons in *. set (cmds := v :: vs) in *.
    assert (Hb : blen (flat_map varint_enc cmds) < 2 ^ 29).
    { eapply N.le_lt_trans; [|exact Hlen]. rewrite blen_app.
      pose proof (field_bytes_len MF_GEOMETRY (flat_map varint_enc cmds)). lia. }
    assert (Hcl2 : N.of_nat (length cmds) < 2 ^ 29).
    { pose proof (flat_varint_len cmds). unfold blen in Hb. lia. }
    destruct (encode_paths_run false o ls o cmds c' []) as (A1 & A2 & A3); try assumption.
    { now apply Forall_concat_in. }
    exists cmds, (VLines (map (map (rel o)) ls)). split.
    { unfold enc_msg. cbn [flat_map enc_field fst snd]. now rewrite app_nil_r. }
    split; [assumption|]. split; [reflexivity|].
    unfold decode_geometry. rewrite <- Hr. rewrite app_nil_r in A3. rewrite A3. cbn [run_commands N.eqb option_map obind Pos.eqb].
    rewrite app_nil_r, group_lines_ok by assumption. reflexivity.
  - apply bind_ok in H as ([] & _ & H). apply bind_ok in H as ([r c'] & E & H). apply Ok_inj in H. subst bs.
    fold (rings ps) in E. destruct Hok as [Hne Hok].
    destruct (encode_paths_nonempty _ _ _ _ _ (rings_nonempty ps Hne) E) as (v & vs & ->).
    rewrite field_packed_cons in *. set (cmds := v :: vs) in *.
    assert (Hb : blen (flat_map varint_enc cmds) < 2 ^ 29).
    { eapply N.le_lt_trans; [|exact Hlen]. rewrite blen_app.
      pose proof (field_bytes_len MF_GEOMETRY (flat_map varint_enc cmds)). lia. }
    assert (Hcl2 : N.of_nat (length cmds) < 2 ^ 29).
    { pose proof (flat_varint_len cmds). unfold blen in Hb. lia. }
    destruct (encode_paths_run true o (rings ps) o cmds c' []) as (A1 & A2 & A3); try assumption.
    { now apply Forall_geom_rings. }
    exists cmds, (VRings (map (map (rel o)) (rings ps))). split.
    { unfold enc_msg. cbn [flat_map enc_field fst snd]. now rewrite app_nil_r. }
    split; [assumption|]. split; [reflexivity|].
    unfold decode_geometry. rewrite <- Hr. rewrite app_nil_r in A3. rewrite A3. cbn [run_commands N.eqb option_map obind Pos.eqb].
    rewrite app_nil_r, group_rings_ok by assumption. reflexivity.
Qed.

Lemma field_one_single {A} (a : A) : field_one [a] = Some a. Proof. reflexivity. Qed.

(** ** round trip *)
Lemma drawable_mvt g : drawable g -> mvt_ok g.
Proof.
  destruct g as [|ps|ls|ps]; cbn [drawable mvt_ok]; auto.
  - intros [H1 H2]. split; [assumption|]. eapply Forall_impl; [|exact H2]. now intros l [H _].
  - intros [H1 H2]. split; [assumption|]. eapply Forall_impl; [|exact H2]. now intros l [H _].
Qed.

Lemma geometry_roundtrip spec g bs least :
  let o := (bminx (px_bounds spec), bminy (px_bounds spec)) in
  encode_geometry spec g = Ok bs -> blen bs < 2 ^ 29 ->
  mvt_ok g -> close_to o g -> rings_closed g ->
  (match g with GPoly ps => Forall (fun l => (least + 2 <= length l)%nat) (rings ps) | _ => True end) ->
  exists v, relative_geom o g = Some v /\ decode_geometry_fields least bs = Some v.
Proof.
  intros o H Hb Hok Hn Hc Hl.
  destruct (encode_geometry_fields spec g bs least H Hb Hok Hn Hc Hl) as (cmds & v & -> & A & B & C).
  exists v. split; [exact B|]. unfold decode_geometry_fields.
  assert (Hw : Forall wire_ok [(3, WInt (geom_type g)); (4, WLen (flat_map varint_enc cmds))]).
  { constructor; [split; [reflexivity|destruct g; reflexivity]|].
    constructor; [split; [reflexivity|]|constructor]. cbn [snd].
    eapply N.le_lt_trans; [|eapply N.lt_trans; [exact Hb|reflexivity]].
    unfold enc_msg. cbn [flat_map enc_field fst snd]. rewrite !blen_app.
    pose proof (field_bytes_len 4 (flat_map varint_enc cmds)). lia. }
  rewrite parse_msg_enc by exact Hw. cbn [obind].
  change (field_all 3 [(3, WInt (geom_type g)); (4, WLen (flat_map varint_enc cmds))]) with [WInt (geom_type g)].
  change (field_all 4 [(3, WInt (geom_type g)); (4, WLen (flat_map varint_enc cmds))]) with [WLen (flat_map varint_enc cmds)].
  cbn [field_one obind as_int as_len]. rewrite unpack_ok by assumption. cbn [obind]. exact C.
Qed.

(** ** totality *)
Lemma sub_near o a b : near o a -> near o b ->
  sub64 (fst a) (fst b) = Ok (fst a - fst b)%Z /\ sub64 (snd a) (snd b) = Ok (snd a - snd b)%Z.
Proof.
  unfold near, sub64, int64_ok, min64, max64. intros H1 H2. split.
  - replace ((- 2 ^ 63 <=? fst a - fst b)%Z && (fst a - fst b <=? 2 ^ 63 - 1)%Z) with true by lia. reflexivity.
  - replace ((- 2 ^ 63 <=? snd a - snd b)%Z && (snd a - snd b <=? 2 ^ 63 - 1)%Z) with true by lia. reflexivity.
Qed.

Lemma encode_deltas_total chk o ps : forall c, near o c -> Forall (near o) ps ->
  (chk = true -> no_equal_neighbours (c :: ps)) ->
  exists r c', encode_deltas chk c ps = Ok (r, c') /\ near o c' /\ c' = last ps c.
Proof.
  induction ps as [|p ps IH]; intros c Hc Hp Hne.
  - exists [], c. repeat split; try apply Hc.
  - inversion Hp as [|? ? Hp1 Hp2]; subst.
    cbn [encode_deltas]. destruct (sub_near o p c Hp1 Hc) as [-> ->]. cbn [bind].
    assert (E : negb chk || negb (fst p - fst c =? 0)%Z || negb (snd p - snd c =? 0)%Z = true).
    { destruct chk; [|reflexivity]. cbn [negb orb]. destruct (Hne eq_refl) as [Hd _].
      destruct p as [px py], c as [cx cy]. cbn [fst snd].
      destruct (Z.eqb_spec (px - cx) 0); [|reflexivity]. destruct (Z.eqb_spec (py - cy) 0); [|reflexivity].
      exfalso. apply Hd. f_equal; lia. }
    rewrite E. cbn [verify bind].
    destruct (IH p Hp1 Hp2) as (r & c' & -> & Hc' & Hl).
    { intros Hk. now destruct (Hne Hk). }
    eexists _, c'. cbn [bind]. split; [reflexivity|]. split; [assumption|].
    rewrite Hl. clear. destruct ps as [|q ps]; [reflexivity|].
    change (last (p :: q :: ps) c) with (last (q :: ps) c).
    revert q. induction ps as [|r ps IH]; intros q; [reflexivity|]. exact (IH r).
Qed.

Lemma nen_firstn ps : forall n, no_equal_neighbours ps -> no_equal_neighbours (firstn n ps).
Proof.
  induction ps as [|a ps IH]; intros [|n] H; cbn [firstn]; try exact I.
  destruct ps as [|b ps]; [destruct n; exact I|]. destruct n as [|n]; [exact I|].
  destruct H as [H1 H2]. specialize (IH (S n) H2). cbn [firstn] in *. now split.
Qed.

Lemma encode_path_total close o l c : near o c -> Forall (near o) l -> (2 <= length l)%nat ->
  no_equal_neighbours l -> exists r c', encode_path close c l = Ok (r, c') /\ near o c'.
Proof.
  intros Hc Hl Hlen Hne. unfold encode_path.
  replace (1 <? N.of_nat (length l)) with true by lia. cbn [verify bind].
  destruct l as [|p l]; [cbn [length] in *; lia|]. inversion Hl; subst.
  cbn [firstn skipn].
  destruct (encode_deltas_total false o [p] c Hc) as (r1 & c1 & -> & Hc1 & El); [now constructor|discriminate|].
  cbn [last] in El. subst c1. cbn [bind].
  match goal with |- context [firstn ?k l] => set (n := k) end.
  destruct (encode_deltas_total true o (firstn n l) p H1) as (r2 & c2 & -> & Hc2 & _).
  { now apply Forall_firstn. }
  { intros _. exact (nen_firstn (p :: l) (S n) Hne). }
  cbn [bind]. eauto.
Qed.

Lemma encode_paths_total close o ls : forall c, near o c -> Forall (Forall (near o)) ls ->
  Forall (fun l => (2 <= length l)%nat /\ no_equal_neighbours l) ls ->
  exists r c', encode_paths close c ls = Ok (r, c').
Proof.
  induction ls as [|l ls IH]; intros c Hc Hn Hl; [cbn; eauto|].
  inversion Hn; inversion Hl as [|? ? [? ?] ?]; subst. cbn [encode_paths].
  destruct (encode_path_total close o l c) as (r1 & c1 & -> & Hc1); try assumption.
  cbn [bind]. destruct (IH c1) as (r2 & c2 & ->); try assumption. cbn [bind]. eauto.
Qed.

Lemma encode_geometry_total spec g :
  close_to (bminx (px_bounds spec), bminy (px_bounds spec)) g -> drawable g ->
  exists bs, encode_geometry spec g = Ok bs.
Proof.
  set (o := (bminx (px_bounds spec), bminy (px_bounds spec))). intros Hn Hd.
  assert (H0 : near o o) by (unfold near; lia).
  destruct g as [|ps|ls|ps]; cbn [drawable] in Hd; [contradiction|..]; cbn [encode_geometry]; fold o;
    unfold close_to in Hn; cbn [geom_points] in Hn; fold (near o) in Hn.
  - destruct (encode_deltas_total false o ps o H0 Hn) as (r & c' & -> & _ & _); [discriminate|]. cbn [bind]. eauto.
  - destruct Hd as [Hne Hd]. destruct (encode_paths_total false o ls o H0) as (r & c' & ->); try assumption.
    { now apply Forall_concat_in. } cbn [bind]. eauto.
  - destruct Hd as [Hne Hd]. destruct ps as [|p0 ps0]; [congruence|]. cbn [verify bind].
    destruct (encode_paths_total true o (rings (p0 :: ps0)) o H0) as (r & c' & E).
    { now apply Forall_geom_rings. }
    { eapply Forall_impl; [|exact Hd]. intros l [H1 H2]. split; [lia | assumption]. }
    match goal with |- context [encode_paths true o ?l] => change l with (rings (p0 :: ps0)) end.
    rewrite E. cbn [bind]. eauto.
Qed.

(** ** shifted geometries *)
Lemma dedup_from_nen ps : forall l, no_equal_neighbours (l :: dedup_from l ps).
Proof.
  induction ps as [|p ps IH]; intros l; cbn [dedup_from]; [exact I|].
  destruct (pt_eqb_spec l p) as [->|Hne]; [apply IH|]. split; [assumption|]. apply IH.
Qed.
Lemma dedup_nen ps : no_equal_neighbours (dedup ps).
Proof. destruct ps as [|p ps]; [exact I|]. apply dedup_from_nen. Qed.

Lemma dedup_from_in ps q : forall l, In q (dedup_from l ps) -> In q ps.
Proof.
  induction ps as [|p ps IH]; intros l H; cbn [dedup_from] in H; [contradiction|].
  destruct (pt_eqb l p); [right; eauto|]. destruct H as [->|H]; [now left | right; eauto].
Qed.
Lemma dedup_in ps q : In q (dedup ps) -> In q ps.
Proof.
  destruct ps as [|p ps]; [auto|]. cbn [dedup]. intros [->|H]; [now left | right; eapply dedup_from_in; eauto].
Qed.

Lemma dedup_from_last ps d : forall l, last (l :: dedup_from l ps) d = last (l :: ps) d.
Proof.
  induction ps as [|p ps IH]; intros l; cbn [dedup_from]; [reflexivity|].
  destruct (pt_eqb_spec l p) as [->|Hne].
  - rewrite IH. reflexivity.
  - change (last (p :: dedup_from p ps) d = last (p :: ps) d). apply IH.
Qed.

Lemma map_closed f r : closed_ring r -> closed_ring (map f r).
Proof. intros (p & q & ->). exists (f p), (map f q). cbn [map]. now rewrite map_app. Qed.

Lemma dedup_closed r : closed_ring r -> (2 <= length (dedup r))%nat -> closed_ring (dedup r).
Proof.
  intros (p & q & ->) Hlen. cbn [dedup] in *. set (t := dedup_from p (q ++ [p])) in *.
  pose proof (dedup_from_last (q ++ [p]) p p) as E. fold t in E.
  destruct (@exists_last _ t) as (t' & x & Et).
  { intros Et. rewrite Et in Hlen. cbn in Hlen. lia. }
  exists p, t'. rewrite Et in *. f_equal. f_equal. f_equal.
  change (p :: t' ++ [x]) with ((p :: t') ++ [x]) in E. rewrite last_last in E.
  change (p :: q ++ [p]) with ((p :: q) ++ [p]) in E. now rewrite last_last in E.
Qed.

Lemma Forall_poly_rings (P : line -> Prop) ps : Forall P (rings ps) <->
  Forall (fun p : poly => P (fst p) /\ Forall P (snd p)) ps.
Proof.
  unfold poly_rings. induction ps as [|p ps IH]; cbn [flat_map]; [split; constructor|].
  rewrite Forall_app. split.
  - intros [H1 H2]. inversion H1; subst. constructor; [split; assumption | now apply IH].
  - intros H. inversion H as [|? ? [? ?] ?]; subst. split; [constructor; assumption | now apply IH].
Qed.

Definition short3 (l : line) : bool := negb (length l <? 3)%nat.

Lemma shift_drawable z g : shift_geom z g = GNull \/
  (drawable (shift_geom z g) /\ (rings_closed g -> rings_closed (shift_geom z g)) /\ kind (shift_geom z g) = kind g).
Proof.
  destruct g as [|ps|ls|ps]; cbn [shift_geom].
  - now left.
  - destruct (transform_erase (shift_pt z) ps) as [|a l] eqn:E; [now left|]. right. repeat split; try exact I. discriminate.
  - destruct (filter _ _) as [|a l] eqn:E; [now left|]. right. repeat split; try exact I; [discriminate|].
    rewrite <- E. apply Forall_forall. intros x Hx. apply filter_In in Hx as [Hx1 Hx2].
    apply in_map_iff in Hx1 as (y & <- & _). split; [|apply dedup_nen].
    destruct (Nat.ltb_spec (length (transform_erase (shift_pt z) y)) 2); [discriminate | assumption].
  - destruct (filter _ _) as [|a l] eqn:E; [now left|]. right. rewrite <- E.
    assert (Hp : forall p, In p (a :: l) -> exists q, In q ps /\
      fst p = transform_erase (shift_pt z) (fst q) /\ (3 <= length (fst p))%nat /\
      forall r, In r (snd p) -> exists s, In s (snd q) /\ r = transform_erase (shift_pt z) s /\ (3 <= length r)%nat).
    { intros p Hx. rewrite <- E in Hx. apply filter_In in Hx as [Hx1 Hx2].
      apply in_map_iff in Hx1 as (q & <- & Hq). cbn [fst snd] in *. exists q. split; [assumption|].
      split; [reflexivity|]. split.
      { destruct (Nat.ltb_spec (length (transform_erase (shift_pt z) (fst q))) 3); [discriminate | assumption]. }
      intros r Hr. apply filter_In in Hr as [Hr1 Hr2]. apply in_map_iff in Hr1 as (s & <- & Hs).
      exists s. repeat split; try assumption.
      destruct (Nat.ltb_spec (length (transform_erase (shift_pt z) s)) 3); [discriminate | assumption]. }
    rewrite E. clear E. split; [|split; [|reflexivity]].
    + cbn [drawable]. split; [discriminate|]. apply Forall_poly_rings, Forall_forall. intros p Hi.
      destruct (Hp p Hi) as (q & Hq & E1 & E2 & E3). destruct p as [po pi], q as [qo qi]. cbn [fst snd] in *. split.
      * split; [assumption|]. rewrite E1. apply dedup_nen.
      * apply Forall_forall. intros r Hr. destruct (E3 r Hr) as (s & Hs & -> & E4). split; [assumption|]. apply dedup_nen.
    + cbn [rings_closed]. intros Hc. apply Forall_poly_rings, Forall_forall. intros p Hi.
      destruct (Hp p Hi) as (q & Hq & E1 & E2 & E3).
      apply Forall_poly_rings in Hc. rewrite Forall_forall in Hc. destruct (Hc q Hq) as [C1 C2].
      destruct p as [po pi], q as [qo qi]. cbn [fst snd] in *. rewrite Forall_forall in C2. split.
      * rewrite E1 in *. apply dedup_closed; [now apply map_closed|]. unfold transform_erase in E2. lia.
      * apply Forall_forall. intros r Hr. destruct (E3 r Hr) as (s & Hs & -> & E4).
        apply dedup_closed; [apply map_closed; auto|]. unfold transform_erase in E4. lia.
Qed.

Lemma shift_points z g p : In p (geom_points (shift_geom z g)) -> exists q, In q (geom_points g) /\ p = shift_pt z q.
Proof.
  assert (T : forall l p, In p (transform_erase (shift_pt z) l) -> exists q, In q l /\ p = shift_pt z q).
  { intros l p' H. apply dedup_in in H. apply in_map_iff in H as (q & <- & Hq). eauto. }
  destruct g as [|ps|ls|ps]; cbn [shift_geom].
  - intros [].
  - destruct (transform_erase (shift_pt z) ps) as [|a l] eqn:E; [intros []|]. rewrite <- E. apply T.
  - destruct (filter _ _) as [|a l] eqn:E; [intros []|]. rewrite <- E. cbn [geom_points].
    intros H. apply in_concat in H as (x & Hx & H). apply filter_In in Hx as [Hx _].
    apply in_map_iff in Hx as (y & <- & Hy). destruct (T _ _ H) as (q & Hq & ->).
    exists q. split; [|reflexivity]. apply in_concat. eauto.
  - destruct (filter _ _) as [|a l] eqn:E; [intros []|]. rewrite <- E. cbn [geom_points].
    intros H. apply in_flat_map in H as (x & Hx & H). apply filter_In in Hx as [Hx _].
    apply in_map_iff in Hx as (y & <- & Hy). cbn [fst snd] in H.
    assert (exists q, In q (fst y ++ concat (snd y)) /\ p = shift_pt z q) as (q & Hq & ->).
    { apply in_app_iff in H as [H|H].
      - destruct (T _ _ H) as (q & Hq & ->). exists q. split; [|reflexivity]. apply in_app_iff. now left.
      - apply in_concat in H as (r & Hr & H). apply filter_In in Hr as [Hr _].
        apply in_map_iff in Hr as (s & <- & Hs). destruct (T _ _ H) as (q & Hq & ->).
        exists q. split; [|reflexivity]. apply in_app_iff. right. apply in_concat. eauto. }
    exists q. split; [|reflexivity]. apply in_flat_map. eauto.
Qed.

Definition in_extent (p : pt) : Prop := (-4096 <= fst p <= 8192 /\ -4096 <= snd p <= 8192)%Z.

Lemma shift_bounds x d c : (0 <= d)%Z ->
  (Z.shiftl (x * 4096) d - 4096 <= c <= Z.shiftl ((x + 1) * 4096) d + 4096)%Z ->
  (-4096 <= Z.shiftr c d - x * 4096 <= 8192)%Z.
Proof.
  intros Hd. rewrite !Z.shiftl_mul_pow2, Z.shiftr_div_pow2 by assumption.
  assert (Hp : (1 <= 2 ^ d)%Z) by (pose proof (Z.pow_pos_nonneg 2 d); lia).
  revert Hp. generalize (2 ^ d)%Z. intros k Hk H. 
  assert (k * (c / k) <= c < k * (c / k) + k)%Z by (pose proof (Z.mul_div_le c k); pose proof (Z.mul_succ_div_gt c k); lia).
  revert H0. generalize (c / k)%Z. intros w Hw. nia.
Qed.

Lemma spec_bounds t spec p : make_tile_spec t = Ok spec ->
  (bminx (draw_bounds spec) <= fst p <= bmaxx (draw_bounds spec) /\
   bminy (draw_bounds spec) <= snd p <= bmaxy (draw_bounds spec))%Z ->
  in_extent (rel (bminx (px_bounds spec), bminy (px_bounds spec)) (shift_pt (tz t) p)) /\ (tz t <= 20)%N.
Proof.
  unfold make_tile_spec. intros H. apply bind_ok in H as ([] & H1 & H). apply verify_ok in H1. apply N.leb_le in H1.
  apply bind_ok in H as ([] & _ & H). apply Ok_inj in H. subst spec. cbn [draw_bounds px_bounds bminx bminy bmaxx bmaxy].
  unfold kMaxZoomLevel in *. intros [Hx Hy]. split; [|assumption].
  unfold in_extent, rel, shift_pt. cbn [fst snd].
  replace (20 - Z.of_N (tz t))%Z with (Z.of_N (20 - tz t)) by lia.
  split; apply shift_bounds; try lia; assumption.
Qed.

Lemma shifted_extent t spec g : make_tile_spec t = Ok spec -> geom_in (draw_bounds spec) g ->
  let o := (bminx (px_bounds spec), bminy (px_bounds spec)) in
  Forall (fun p => in_extent (rel o p)) (geom_points (shift_geom (tz t) g)).
Proof.
  intros Hs Hg. apply Forall_forall. intros p Hp. apply shift_points in Hp as (q & Hq & ->).
  unfold geom_in in Hg. rewrite Forall_forall in Hg. now apply spec_bounds with (p := q); auto.
Qed.

Lemma extent_near o p : in_extent (rel o p) -> near o p.
Proof. unfold in_extent, near, rel. cbn [fst snd]. lia. Qed.

Lemma shifted_near t spec g : make_tile_spec t = Ok spec -> geom_in (draw_bounds spec) g ->
  close_to (bminx (px_bounds spec), bminy (px_bounds spec)) (shift_geom (tz t) g).
Proof.
  intros Hs Hg. unfold close_to. eapply Forall_impl; [|exact (shifted_extent t spec g Hs Hg)].
  intros p. apply extent_near.
Qed.

Lemma drawable_rings3 g : drawable g ->
  match g with GPoly ps => Forall (fun l => (1 + 2 <= length l)%nat) (rings ps) | _ => True end.
Proof.
  destruct g as [|ps|ls|ps]; cbn [drawable]; auto. intros [_ H]. eapply Forall_impl; [|exact H]. intros l [H1 _]. lia.
Qed.

Lemma relative_points o g v : relative_geom o g = Some v -> vpoints v = map (rel o) (match g with GPoly ps => concat (rings ps) | _ => geom_points g end).
Proof.
  destruct g as [|ps|ls|ps]; cbn [relative_geom]; intros H; [discriminate|..]; injection H as <-; cbn [vpoints geom_points];
    [reflexivity|now rewrite concat_map..].
Qed.

Lemma concat_rings ps : concat (rings ps) = geom_points (GPoly ps).
Proof.
  unfold poly_rings. cbn [geom_points]. induction ps as [|p ps IH]; [reflexivity|]. cbn [flat_map].
  rewrite concat_app. cbn [concat]. now rewrite IH.
Qed.

Lemma shifted_tile t spec g : make_tile_spec t = Ok spec ->
  geom_in (draw_bounds spec) g -> rings_closed g ->
  let g' := shift_geom (tz t) g in
  let o := (bminx (px_bounds spec), bminy (px_bounds spec)) in
  g' <> GNull ->
  exists bs v, encode_geometry spec g' = Ok bs /\ relative_geom o g' = Some v /\
    (blen bs < 2 ^ 29 -> decode_geometry_fields 1 bs = Some v) /\ Forall in_extent (vpoints v).
Proof.
  intros Hs Hg Hc g' o Hne.
  destruct (shift_drawable (tz t) g) as [E|(Hd & Hc' & _)]; [contradiction|]. fold g' in Hd, Hc'.
  pose proof (shifted_near t spec g Hs Hg) as Hn. fold g' o in Hn.
  destruct (encode_geometry_total spec g' Hn Hd) as (bs & E).
  destruct (relative_geom o g') as [v|] eqn:Ev; [|destruct g'; [congruence|discriminate..]].
  exists bs, v. split; [assumption|]. split; [reflexivity|]. split.
  - intros Hb. destruct (geometry_roundtrip spec g' bs 1 E Hb) as (v' & E1 & E2); auto.
    + now apply drawable_mvt. + now apply drawable_rings3.
    + fold o in E1. rewrite Ev in E1. injection E1 as <-. exact E2.
  - rewrite (relative_points o g' v Ev). apply Forall_map.
    pose proof (shifted_extent t spec g Hs Hg) as H. fold g' o in H. cbv zeta in H.
    destruct g'; try exact H. now rewrite concat_rings.
Qed.
