(** Statistics of preparing tiles. *)
From Coq Require Import Permutation.
From Verif Require Import Base BaseProof ModelTile SpecTile ProofTile ModelPrepare SpecPrepare ProofPrepare ModelPrepLog SpecPrepLog.
Open Scope N_scope.

Definition at_level (z : N) (t : tile) : bool := tz t =? z.
Definition many {A} (p : A -> bool) (l : list A) : N := N.of_nat (length (filter p l)).
Lemma many_app {A} (p : A -> bool) a b : many p (a ++ b) = many p a + many p b.
Proof. unfold many. rewrite filter_app, app_length. lia. Qed.
Lemma many_cons {A} (p : A -> bool) a b : many p (a :: b) = (if p a then 1 else 0) + many p b.
Proof. unfold many. cbn [filter]. destruct (p a); cbn [length]; lia. Qed.
Lemma many_nil {A} (p : A -> bool) : many p [] = 0.
Proof. reflexivity. Qed.
Lemma many_0 {A} (p : A -> bool) l : many p l = 0 <-> forall a, In a l -> p a = false.
Proof.
  induction l as [|a l IH]; [split; [intros _ a [] | reflexivity]|]. rewrite many_cons. split.
  - intros H b [<-|Hb]; [destruct (p a); [lia | reflexivity]|]. apply IH; [destruct (p a); lia | assumption].
  - intros H. rewrite (H a (or_introl eq_refl)). rewrite (proj2 IH); [reflexivity|]. intros b Hb. apply H. now right.
Qed.
Lemma many_perm {A} (p : A -> bool) a b : Permutation a b -> many p a = many p b.
Proof. induction 1; rewrite ?many_cons; try lia; try reflexivity. Qed.
Lemma nodup_app {A} (a b : list A) : NoDup a -> NoDup b -> (forall x, In x a -> In x b -> False) -> NoDup (a ++ b).
Proof.
  intros Ha Hb H. induction Ha as [|x a Hx Ha IH]; [assumption|]. cbn [app]. constructor; [|apply IH; intros y H1 H2; apply (H y); [now right | assumption]].
  intros Hi. apply in_app_or in Hi as [Hi|Hi]; [contradiction|]. apply (H x); [left; reflexivity | assumption].
Qed.
Lemma sum_app {A} (f : A -> N) a b : sum_of f (a ++ b) = sum_of f a + sum_of f b.
Proof. induction a as [|x a IH]; cbn [app sum_of fold_right]; [reflexivity|]. fold (sum_of f (a ++ b)). fold (sum_of f a). lia. Qed.

(** ** updates *)
Lemma stat_update_ok out st : forall i f, (i < length st)%nat -> exists st', stat_update out st i f = Ok st' /\ length st' = length st /\
  forall j, nth_error st' j = if Nat.eqb j i then option_map f (nth_error st j) else nth_error st j.
Proof.
  induction st as [|s st IH]; intros i f Hi; cbn [length] in Hi; [lia|]. destruct i as [|i]; cbn [stat_update].
  - exists (f s :: st). split; [reflexivity|]. split; [reflexivity|]. intros [|j]; reflexivity.
  - destruct (IH i f) as (st' & -> & E1 & E2); [lia|]. cbn [bind]. exists (s :: st'). split; [reflexivity|]. split; [cbn [length]; lia|]. intros [|j]; [reflexivity|]. cbn [nth_error Nat.eqb]. apply E2.
Qed.

Section Log.
Variable size : tile -> N.

Definition stat_of (z : N) (dn : list (tile * N)) (pe : list tile) : pstats :=
  let l := filter (fun e => at_level z (fst e)) dn in
  PStats (many (at_level z) (map fst dn ++ pe)) (N.of_nat (length l)) (many (fun e => negb (size (fst e) =? 0)) l)
    (sum_of (fun e => size (fst e)) l) (sum_of snd l).
Definition line_of (z : N) (dn : list (tile * N)) : pline :=
  let s := stat_of z dn [] in
  PLine z (s_dur s) (s_total s) (if s_total s =? s_empty s then None else Some (s_size s, s_total s - s_empty s)) (s_empty s).
Definition pend (p : lpc) : list tile := match p with LTiles b => b | _ => [] end.

(** levels of the manager *)
Definition man_levels (m : pman) : Prop := Forall (fun t => tz t = pm_z m) (pm_rest m).
Lemma range_level c z : Forall (fun t => tz t = z) (tile_range_on_z c z).
Proof. apply Forall_forall. intros t Ht. unfold tile_range_on_z in Ht. apply range_tiles_In in Ht as [Ht _]. exact Ht. Qed.
Lemma todo_levels m : man_levels m -> Forall (fun t => pm_z m <= tz t <= pm_max m) (todo m).
Proof.
  intros H. unfold todo. destruct (N.ltb_spec (pm_max m) (pm_z m)); [constructor|]. apply Forall_app. split.
  - eapply Forall_impl; [|exact H]. cbv beta. intros t ->. lia.
  - apply Forall_forall. intros t Ht. apply in_flat_map in Ht as (z & Hz & Ht). apply nrange_In in Hz. rewrite (proj1 (Forall_forall _ _) (range_level _ z) t Ht). lia.
Qed.

Lemma batch_stats n : forall m st dn pe, man_ok m -> man_levels m -> length st = (N.to_nat (pm_max m) + 1)%nat ->
  (forall z, z <= pm_max m -> nth_error st (N.to_nat z) = Some (stat_of z dn pe)) ->
  exists b m' st', batch_loop_stats n m st = Ok (b, m', st') /\ batch_loop n m = Ok (b, m') /\ man_levels m' /\ pm_max m' = pm_max m /\ length st' = length st /\
    (forall z, z <= pm_max m -> nth_error st' (N.to_nat z) = Some (stat_of z dn (pe ++ b))) /\
    pm_z m <= pm_z m' /\ Forall (fun t => pm_z m <= tz t <= pm_z m' /\ tz t <= pm_max m) b /\ (forall z, pm_z m <= z < pm_z m' -> exists t, In t b /\ tz t = z).
Proof.
  induction n as [|n IH]; intros m st dn pe HM HL Hst HS; cbn [batch_loop_stats batch_loop].
  - exists [], m, st. rewrite app_nil_r. split; [reflexivity|]. split; [reflexivity|]. split; [assumption|]. split; [reflexivity|]. split; [reflexivity|]. split; [assumption|]. split; [lia|]. split; [constructor|]. intros z Hz. lia.
  - destruct (N.ltb_spec (pm_max m) (pm_z m)) as [Lt|Lt].
    + exists [], m, st. rewrite app_nil_r. split; [reflexivity|]. split; [reflexivity|]. split; [assumption|]. split; [reflexivity|]. split; [reflexivity|]. split; [assumption|]. split; [lia|]. split; [constructor|]. intros z Hz. lia.
    + destruct (stat_update_ok UB st (N.to_nat (pm_z m)) (fun s => PStats (s_total s + 1) (s_finished s) (s_empty s) (s_size s) (s_dur s))) as (st1 & -> & U1 & U2); [lia|]. cbn [bind].
      destruct HM as [HM1 HM2]. destruct (pm_rest m) as [|t rest] eqn:E; [congruence|].
      assert (Ht : tz t = pm_z m) by (unfold man_levels in HL; rewrite E in HL; now inversion HL).
      set (m1 := match rest with [] => _ | _ => _ end).
      assert (Q : man_ok m1 /\ man_levels m1 /\ pm_max m1 = pm_max m /\ (pm_z m1 = pm_z m \/ pm_z m1 = pm_z m + 1)).
      { unfold m1. destruct rest as [|t' rest].
        - split; [split; cbn [pm_base pm_rest]; auto|]. split; [apply range_level|]. cbn [pm_max pm_z]. auto.
        - split; [split; cbn [pm_base pm_rest]; [auto | discriminate]|]. split; [unfold man_levels in *; rewrite E in HL; cbn [pm_rest pm_z]; now inversion HL|]. cbn [pm_max pm_z]. auto. }
      clearbody m1. destruct Q as (Q1 & Q2 & Q3 & Q4).
      destruct (IH m1 st1 dn (pe ++ [t]) Q1 Q2) as (b & m' & st' & -> & -> & B1 & B2 & B3 & B4 & B5 & B6 & B7).
      { rewrite U1, Q3. assumption. }
      { intros z Hz. rewrite U2. rewrite Q3 in Hz. rewrite (HS z Hz). cbn [option_map]. unfold stat_of. cbn [s_total s_finished s_empty s_size s_dur].
        rewrite app_assoc, (many_app _ _ [t]), many_cons, many_nil. unfold at_level at 9. destruct (Nat.eqb_spec (N.to_nat z) (N.to_nat (pm_z m))) as [Ez|Ez].
        - assert (z = pm_z m) by lia. subst z. unfold at_level. rewrite Ht, N.eqb_refl. reflexivity.
        - assert (Ez' : at_level z t = false) by (unfold at_level; rewrite Ht; apply N.eqb_neq; lia). rewrite ?Ez'. rewrite N.add_0_l, N.add_0_r. reflexivity. }
      cbn [bind]. exists (t :: b), m', st'. split; [reflexivity|]. split; [reflexivity|]. split; [assumption|]. split; [congruence|]. split; [congruence|].
      split; [intros z Hz; rewrite B4 by congruence; now rewrite <- app_assoc|]. split; [lia|]. split.
      * constructor; [split; lia|]. eapply Forall_impl; [|exact B6]. cbv beta. intros q. rewrite Q3. lia.
      * intros z Hz. destruct (N.eq_dec z (pm_z m)) as [->|Hne]; [exists t; split; [left; reflexivity | assumption]|]. destruct (B7 z) as (q & Hq & Eq); [lia|]. exists q. split; [now right | assumption].
Qed.

Lemma stat_pend z dn a b : many (at_level z) a = many (at_level z) b -> stat_of z dn a = stat_of z dn b.
Proof. intros H. unfold stat_of. now rewrite !many_app, H. Qed.
Lemma stat_other z dn t dur pe pe' : at_level z t = false -> many (at_level z) pe = many (at_level z) pe' -> stat_of z (dn ++ [(t, dur)]) pe' = stat_of z dn pe.
Proof.
  intros H E. unfold stat_of. rewrite map_app, filter_app. cbn [map fst filter]. rewrite H, app_nil_r. rewrite !many_app. rewrite (many_cons _ t), many_nil, H. rewrite E. f_equal. lia.
Qed.
Lemma stat_this dn t dur pe pe' : many (at_level (tz t)) pe = 1 + many (at_level (tz t)) pe' ->
  stat_of (tz t) (dn ++ [(t, dur)]) pe' = (let s := stat_of (tz t) dn pe in
    PStats (s_total s) (s_finished s + 1) (if negb (size t =? 0) then s_empty s + 1 else s_empty s) (s_size s + size t) (s_dur s + dur)).
Proof.
  intros E. assert (H : at_level (tz t) t = true) by apply N.eqb_refl. cbv zeta. unfold stat_of. cbn [s_total s_finished s_empty s_size s_dur].
  rewrite map_app, filter_app. cbn [map fst filter]. rewrite H, app_length, !sum_app, !many_app, E. rewrite !(many_cons _ t), !many_cons, !many_nil, H. cbn [length sum_of fold_right fst snd]. f_equal; try lia. destruct (negb (size t =? 0)); lia.
Qed.

Record linv (m0 : pman) (s : plog) : Prop := {
  li_man : man_ok (g_man s); li_lev : man_levels (g_man s); li_max : pm_max (g_man s) = pm_max m0;
  li_all : Permutation (todo m0) (map fst (g_done s) ++ flat_map pend (g_threads s) ++ todo (g_man s));
  li_len : length (g_stats s) = (N.to_nat (pm_max m0) + 1)%nat;
  li_st : forall z, z <= pm_max m0 -> nth_error (g_stats s) (N.to_nat z) = Some (stat_of z (g_done s) (flat_map pend (g_threads s)));
  li_pend : Forall (fun t => tz t <= pm_z (g_man s) /\ tz t <= pm_max m0) (flat_map pend (g_threads s));
  li_log : Forall (fun l => l = line_of (l_level l) (g_done s)) (g_log s);
  li_once : NoDup (map l_level (g_log s));
  li_in : forall z, In z (map l_level (g_log s)) <-> z < pm_z (g_man s) /\ z <= pm_max m0 /\ many (at_level z) (flat_map pend (g_threads s)) = 0;
  li_exit : In LExit (g_threads s) -> todo (g_man s) = [] }.

Lemma linv_init m n : man_ok m -> man_levels m -> pm_z m = 0 -> linv m (PLog m (repeat (PStats 0 0 0 0 0) (N.to_nat (pm_max m) + 1)) (repeat LTop n) [] []).
Proof.
  intros H1 H2 H3. assert (E : flat_map pend (repeat LTop n) = []) by (clear; induction n; auto).
  constructor; cbn [g_man g_stats g_threads g_log g_done map app]; rewrite ?E; try assumption; try reflexivity; try constructor.
  - apply repeat_length.
  - intros z Hz. rewrite nth_error_repeat by lia. reflexivity.
  - intros [].
  - lia.
  - intros H. apply repeat_spec in H. discriminate H.
Qed.

Lemma get_batch_stats_ok m0 s : linv m0 s -> exists b m' st', get_batch_stats (g_man s) (g_stats s) = Ok (b, m', st').
Proof.
  intros H. destruct (batch_stats (N.to_nat (N.shiftl 1 9 / N.shiftl 1 (9 - pm_z (g_man s)))) (g_man s) (g_stats s) (g_done s) (flat_map pend (g_threads s)) (li_man _ _ H) (li_lev _ _ H)) as (b & m' & st' & E & _).
  - rewrite (li_max _ _ H). apply (li_len _ _ H).
  - rewrite (li_max _ _ H). apply (li_st _ _ H).
  - exists b, m', st'. exact E.
Qed.
Lemma finish_ok m0 s t1 t b t2 dur : linv m0 s -> g_threads s = t1 ++ LTiles (t :: b) :: t2 -> exists r, finish (g_man s) (g_stats s) t (size t) dur = Ok r.
Proof.
  intros H E. assert (Ht : tz t <= pm_max m0). { apply (proj1 (Forall_forall _ _) (li_pend _ _ H) t). rewrite E, flat_map_app. cbn [flat_map pend]. apply in_or_app. right. left. reflexivity. }
  unfold finish. destruct (stat_update_ok Throw (g_stats s) (N.to_nat (tz t)) (fun s => PStats (s_total s) (s_finished s + 1) (if negb (size t =? 0) then s_empty s + 1 else s_empty s) (s_size s + size t) (s_dur s + dur))) as (st' & -> & U1 & U2).
  { rewrite (li_len _ _ H). lia. }
  cbn [bind]. rewrite U2, Nat.eqb_refl, (li_st _ _ H _ Ht). cbn [option_map]. match goal with |- context [if ?c then _ else _] => destruct c end; eauto.
Qed.

Lemma linv_step m0 s s' : linv m0 s -> log_step size s s' -> linv m0 s'.
Proof.
  intros H St. destruct St as [m m' st st' b t1 t2 log dn E | m st st' t b t1 t2 log out dur dn E].
  - pose proof (li_all _ _ H) as HA. pose proof (li_in _ _ H) as HIn. pose proof (li_pend _ _ H) as HP. pose proof (li_max _ _ H) as HX. pose proof (li_st _ _ H) as HS. pose proof (li_len _ _ H) as HLn. pose proof (li_exit _ _ H) as HE.
    cbn [g_man g_stats g_threads g_log g_done] in *. rewrite flat_map_app in HA, HIn, HP, HS. cbn [flat_map pend app] in HA, HIn, HP, HS.
    destruct (batch_stats (N.to_nat (N.shiftl 1 9 / N.shiftl 1 (9 - pm_z m))) m st dn (flat_map pend t1 ++ flat_map pend t2) (li_man _ _ H) (li_lev _ _ H)) as (b' & m1 & st1 & E1 & E2 & B1 & B2 & B3 & B4 & B5 & B6 & B7).
    { now rewrite HX. } { now rewrite HX. }
    unfold get_batch_stats in E. cbn [g_man] in *. rewrite E1 in E. apply Ok_inj in E. injection E as -> -> ->.
    destruct (get_batch_spec m (li_man _ _ H)) as (b2 & m2 & E3 & G1 & G2 & G3). unfold get_batch in E3. rewrite E2 in E3. apply Ok_inj in E3. injection E3 as <- <-.
    set (p := match b with [] => LExit | _ => LTiles b end). assert (Ep : pend p = b) by (unfold p; destruct b; reflexivity).
    assert (HC : forall z, many (at_level z) (flat_map pend t1 ++ b ++ flat_map pend t2) = many (at_level z) ((flat_map pend t1 ++ flat_map pend t2) ++ b)) by (intros z; rewrite !many_app; lia).
    constructor; cbn [g_man g_stats g_threads g_log g_done]; rewrite ?flat_map_app; cbn [flat_map]; rewrite ?Ep.
    + assumption.
    + assumption.
    + congruence.
    + rewrite HA, G2. apply Permutation_app_head. rewrite !app_assoc. apply Permutation_app_tail. rewrite <- !app_assoc. apply Permutation_app_head. apply Permutation_app_comm.
    + congruence.
    + intros z Hz. rewrite B4 by congruence. f_equal. apply stat_pend. now rewrite HC.
    + rewrite HX in B6. apply Forall_app in HP as [P1 P2]. apply Forall_app. split; [eapply Forall_impl; [|exact P1]; cbv beta; lia|]. apply Forall_app. split; [eapply Forall_impl; [|exact B6]; cbv beta; lia | eapply Forall_impl; [|exact P2]; cbv beta; lia].
    + exact (li_log _ _ H).
    + exact (li_once _ _ H).
    + intros z. rewrite HIn, HC, (many_app _ _ b). split.
      * intros (Z1 & Z2 & Z3). split; [lia|]. split; [assumption|]. rewrite Z3. cbn. apply many_0. intros q Hq. apply (proj1 (Forall_forall _ _) B6) in Hq. unfold at_level. apply N.eqb_neq. lia.
      * intros (Z1 & Z2 & Z3). destruct (N.lt_ge_cases z (pm_z m)) as [Zl|Zl]; [split; [assumption|]; split; [assumption | lia]|]. exfalso. destruct (B7 z) as (q & Hq & Eq); [lia|].
        assert (Q : many (at_level z) b = 0) by lia. apply (proj1 (many_0 _ _) Q) in Hq. unfold at_level in Hq. apply N.eqb_neq in Hq. lia.
    + intros Hx. destruct b as [|t b].
      * specialize (G3 eq_refl). rewrite G3 in G2. cbn [app] in G2. now symmetry.
      * assert (Hx' : In LExit (t1 ++ LTop :: t2)). { apply in_app_or in Hx as [Hx|[Hx|Hx]]; [apply in_or_app; now left | discriminate Hx | apply in_or_app; right; now right]. }
        specialize (HE Hx'). rewrite HE in G2. discriminate G2.
  - pose proof (li_all _ _ H) as HA. pose proof (li_in _ _ H) as HIn. pose proof (li_pend _ _ H) as HP. pose proof (li_max _ _ H) as HX. pose proof (li_st _ _ H) as HS. pose proof (li_len _ _ H) as HLn. pose proof (li_exit _ _ H) as HE. pose proof (li_log _ _ H) as HG. pose proof (li_once _ _ H) as HO.
    cbn [g_man g_stats g_threads g_log g_done] in *. rewrite flat_map_app in HA, HIn, HP, HS. cbn [flat_map pend app] in HA, HIn, HP, HS.
    set (p := match b with [] => LTop | _ => LTiles b end). assert (Ep : pend p = b) by (unfold p; destruct b; reflexivity).
    set (pe' := flat_map pend t1 ++ b ++ flat_map pend t2).
    assert (HC : forall z, many (at_level z) (flat_map pend t1 ++ t :: b ++ flat_map pend t2) = (if at_level z t then 1 else 0) + many (at_level z) pe'). { intros z. unfold pe'. rewrite !many_app, many_cons, many_app. lia. }
    assert (Ht : tz t <= pm_z m /\ tz t <= pm_max m0) by (apply (proj1 (Forall_forall _ _) HP); apply in_or_app; right; left; reflexivity).
    unfold finish in E. destruct (stat_update_ok Throw st (N.to_nat (tz t)) (fun s => PStats (s_total s) (s_finished s + 1) (if negb (size t =? 0) then s_empty s + 1 else s_empty s) (s_size s + size t) (s_dur s + dur))) as (st1 & E1 & U1 & U2); [lia|].
    rewrite E1 in E. cbn [bind] in E. pose proof (U2 (N.to_nat (tz t))) as U3. rewrite Nat.eqb_refl, (HS _ (proj2 Ht)) in U3. cbn [option_map] in U3.
    rewrite <- (stat_this dn t dur _ pe') in U3; [|rewrite HC; unfold at_level; rewrite N.eqb_refl; reflexivity]. rewrite U3 in E.
    assert (HS' : forall z, z <= pm_max m0 -> nth_error st1 (N.to_nat z) = Some (stat_of z (dn ++ [(t, dur)]) pe')).
    { intros z Hz. destruct (N.eq_dec z (tz t)) as [->|Hne]; [exact U3|]. rewrite U2. destruct (Nat.eqb_spec (N.to_nat z) (N.to_nat (tz t))); [lia|]. rewrite (HS z Hz). f_equal. symmetry.
      assert (Ez : at_level z t = false) by (apply N.eqb_neq; congruence). apply stat_other; [assumption|]. rewrite HC, Ez. lia. }
    assert (HT : s_total (stat_of (tz t) (dn ++ [(t, dur)]) pe') = s_finished (stat_of (tz t) (dn ++ [(t, dur)]) pe') + many (at_level (tz t)) pe').
    { unfold stat_of. cbn [s_total s_finished]. rewrite many_app. f_equal. unfold many. f_equal. clear. induction (dn ++ [(t, dur)]) as [|[a c] l IH]; [reflexivity|]. cbn [map filter fst]. destruct (at_level (tz t) a); cbn [length]; [f_equal|]; apply IH. }
    assert (HG' : Forall (fun l => l = line_of (l_level l) (dn ++ [(t, dur)])) log).
    { apply Forall_forall. intros l Hl. assert (Hi : In (l_level l) (map l_level log)) by now apply in_map. apply HIn in Hi as (_ & _ & Hi). rewrite HC in Hi. destruct (at_level (l_level l) t) eqn:El; [lia|].
      pose proof (proj1 (Forall_forall _ _) HG l Hl) as HQ. cbn beta in HQ. rewrite HQ at 1. unfold line_of. cbv zeta. rewrite (stat_other (l_level l) dn t dur [] []); [reflexivity | assumption | reflexivity]. }
    assert (Hperm : Permutation (todo m0) (map fst (dn ++ [(t, dur)]) ++ pe' ++ todo m)).
    { rewrite HA, map_app. cbn [map fst]. rewrite <- (app_assoc (map fst dn) [t]). apply Permutation_app_head. unfold pe'. rewrite <- !app_assoc. cbn [app]. rewrite <- ?app_assoc. apply Permutation_sym, Permutation_middle. }
    assert (HP' : Forall (fun q => tz q <= pm_z m /\ tz q <= pm_max m0) pe').
    { unfold pe'. apply Forall_app in HP as [P1 P2]. apply Forall_app. split; [assumption | now inversion P2]. }
    assert (HEx : In LExit (t1 ++ p :: t2) -> todo m = []).
    { intros Hx. apply HE. apply in_app_or in Hx as [Hx|[Hx|Hx]]; [apply in_or_app; now left | unfold p in Hx; destruct b; discriminate Hx | apply in_or_app; right; now right]. }
    assert (Hnot : ~ In (tz t) (map l_level log)). { intros Hi. apply HIn in Hi as (_ & _ & Hi). rewrite HC in Hi. unfold at_level in Hi. rewrite N.eqb_refl in Hi. lia. }
    assert (Hsame : forall z, z <> tz t -> (In z (map l_level log) <-> z < pm_z m /\ z <= pm_max m0 /\ many (at_level z) pe' = 0)).
    { intros z Hz. rewrite HIn, HC. assert (Ez : at_level z t = false) by (apply N.eqb_neq; congruence). rewrite Ez. cbn. reflexivity. }
    destruct ((tz t =? pm_z m) || (s_finished (stat_of (tz t) (dn ++ [(t, dur)]) pe') <? s_total (stat_of (tz t) (dn ++ [(t, dur)]) pe'))) eqn:Ec; apply Ok_inj in E; injection E as <- <-.
    + constructor; cbn [g_man g_stats g_threads g_log g_done]; rewrite ?flat_map_app; cbn [flat_map]; rewrite ?Ep, ?app_nil_r; fold pe'; try assumption; try congruence; try apply (li_man _ _ H); try apply (li_lev _ _ H).
      intros z. destruct (N.eq_dec z (tz t)) as [->|Hne]; [|now apply Hsame]. split; [intros Hi; contradiction|]. intros (Z1 & _ & Z3). exfalso. apply Bool.orb_true_iff in Ec as [Ec|Ec]; [apply N.eqb_eq in Ec; lia|]. apply N.ltb_lt in Ec. lia.
    + apply Bool.orb_false_iff in Ec as [Ec1 Ec2]. apply N.eqb_neq in Ec1. apply N.ltb_ge in Ec2.
      assert (Hz0 : many (at_level (tz t)) pe' = 0) by lia.
      constructor; cbn [g_man g_stats g_threads g_log g_done]; rewrite ?flat_map_app; cbn [flat_map]; rewrite ?Ep; fold pe'; try assumption; try congruence; try apply (li_man _ _ H); try apply (li_lev _ _ H).
      * apply Forall_app. split; [assumption|]. constructor; [|constructor]. cbn [l_level]. unfold line_of. rewrite (stat_pend (tz t) (dn ++ [(t, dur)]) [] pe') by (rewrite Hz0; reflexivity). reflexivity.
      * rewrite map_app. cbn [map l_level]. apply nodup_app; [assumption | constructor; [intros [] | constructor]|]. intros z Hz [<-|[]]. contradiction.
      * intros z. rewrite map_app. cbn [map l_level]. rewrite in_app_iff. destruct (N.eq_dec z (tz t)) as [->|Hne].
        -- split; [intros _; split; [lia | split; [apply Ht | assumption]] | intros _; right; left; reflexivity].
        -- rewrite <- (Hsame z Hne). split; [intros [Hi|[Hi|[]]]; [assumption | congruence] | now left].
Qed.
Lemma linv_reach m n s : man_ok m -> man_levels m -> pm_z m = 0 -> log_reach size m n s -> linv m s.
Proof. intros H1 H2 H3 R. induction R as [|s s' R IH St]; [now apply linv_init | now apply (linv_step m s)]. Qed.
End Log.

(** ** The log *)
Lemma log_lines features max m n size s : make_prepare_manager features max = Ok m -> log_reach size m n s ->
  NoDup (map l_level (g_log s)) /\
  (forall l, In l (g_log s) -> l_level l <= max /\ exists ds, level_done features s (l_level l) ds /\
     l_total l = N.of_nat (length ds) /\ l_dur l = sum_of snd ds /\
     l_empty l = drawn_tiles size ds /\
     l_average l = if empty_tiles size ds =? 0 then None else Some (sum_of (fun e => size (fst e)) ds, empty_tiles size ds)) /\
  ((0 < n)%nat -> all_done s -> forall z, z <= max -> In z (map l_level (g_log s))).
Proof.
  intros HM R. destruct (manager_ok _ _ _ HM) as (x0 & y0 & x1 & y1 & -> & Hx & Hy & Hne & Hrect).
  set (m := pm_make (base_of x0 y0 x1 y1) max) in *.
  assert (M1 : man_ok m). { split; [|apply on_z_nonempty; assumption]. intros z. apply on_z_nonempty; assumption. }
  assert (M2 : man_levels m) by apply range_level.
  pose proof (linv_reach size m n s M1 M2 eq_refl R) as I. destruct (todo_all x0 y0 x1 y1 max Hx Hy) as [T1 T2]. fold m in T1, T2.
  split; [exact (li_once _ _ _ I)|]. split.
  - intros l Hl. assert (Hi : In (l_level l) (map l_level (g_log s))) by now apply in_map. apply (li_in _ _ _ I) in Hi as (Z1 & Z2 & Z3). cbn [m pm_make pm_max] in Z2. split; [exact Z2|].
    pose proof (proj1 (Forall_forall _ _) (li_log _ _ _ I) l Hl) as HQ. cbn beta in HQ. set (z := l_level l) in *. exists (filter (fun e => at_level z (fst e)) (g_done s)). unfold level_done, empty_tiles, drawn_tiles. rewrite <- !and_assoc. rewrite !and_assoc. split; [intros e He; apply filter_In in He as [He _]; exact He|].
    assert (HN : NoDup (map fst (g_done s))). { pose proof (Permutation_NoDup (li_all _ _ _ I) T1) as Q. clear -Q. induction (map fst (g_done s)) as [|a d IH]; [constructor|]. cbn [app] in Q. inversion Q as [|? ? Q1 Q2]; subst. constructor; [|now apply IH]. intros H. apply Q1, in_or_app. now left. }
    split. { clear -HN. induction (g_done s) as [|[a c] d IH]; [constructor|]. cbn [map fst] in HN. inversion HN as [|? ? Q1 Q2]; subst. cbn [filter fst]. destruct (at_level z a); [|now apply IH]. cbn [map fst]. constructor; [|now apply IH].
      intros H. apply Q1. apply in_map_iff in H as ([b e] & Eb & H). apply filter_In in H as [H _]. cbn [fst] in Eb. subst b. apply in_map_iff. exists (a, e). auto. }
    split; [|split; [|split; [|split]]].
    + intros t. split.
      * intros H. apply in_map_iff in H as ([b e] & Eb & H). apply filter_In in H as [H Hz]. cbn [fst] in *. subst b. apply N.eqb_eq in Hz. split; [exact Hz|].
        assert (Ht : In t (todo m)). { apply (Permutation_in _ (Permutation_sym (li_all _ _ _ I))), in_or_app. left. apply in_map_iff. exists (t, e). auto. }
        apply T2 in Ht as (_ & i & Hr & Hrel). exists i. split; [now apply Hrect | exact Hrel].
      * intros (Ht & i & Hr & Hrel). assert (Hin : In t (todo m)). { apply T2. split; [lia|]. exists i. split; [now apply Hrect | exact Hrel]. }
        apply (Permutation_in _ (li_all _ _ _ I)) in Hin. apply in_app_or in Hin as [Hin|Hin].
        -- apply in_map_iff in Hin as ([b e] & Eb & H). cbn [fst] in Eb. subst b. apply in_map_iff. exists (t, e). split; [reflexivity|]. apply filter_In. split; [exact H|]. cbn [fst]. apply N.eqb_eq. exact Ht.
        -- exfalso. apply in_app_or in Hin as [Hin|Hin]; [apply (proj1 (many_0 _ _) Z3) in Hin; apply N.eqb_neq in Hin; contradiction|]. apply (proj1 (Forall_forall _ _) (todo_levels size _ (li_lev _ _ _ I))) in Hin. lia.
    + rewrite HQ. unfold line_of. cbn [l_total stat_of s_total]. rewrite app_nil_r. unfold many. f_equal. clear. induction (g_done s) as [|[a c] d IH]; [reflexivity|]. cbn [map filter fst]. destruct (at_level z a); cbn [length]; [f_equal|]; apply IH.
    + rewrite HQ. reflexivity.
    + rewrite HQ. reflexivity.
    + rewrite HQ. unfold line_of. cbv zeta. cbn [l_average stat_of s_total s_empty s_size]. rewrite app_nil_r. fold (many (fun e : tile * N => size (fst e) =? 0) (filter (fun e => at_level z (fst e)) (g_done s))).
      assert (E : many (at_level z) (map fst (g_done s)) = many (fun e => negb (size (fst e) =? 0)) (filter (fun e => at_level z (fst e)) (g_done s)) + many (fun e => size (fst e) =? 0) (filter (fun e => at_level z (fst e)) (g_done s))).
      { clear. induction (g_done s) as [|[a c] d IH]; [reflexivity|]. cbn [map fst filter]. rewrite many_cons. destruct (at_level z a); [|lia]. rewrite !many_cons. cbn [fst]. rewrite IH. destruct (size a =? 0); cbn [negb]; lia. }
      rewrite E. set (u := many (fun e => negb (size (fst e) =? 0)) _). set (v := many (fun e => size (fst e) =? 0) _). destruct (N.eqb_spec (u + v) u), (N.eqb_spec v 0); try lia; try reflexivity. f_equal. f_equal. lia.
  - intros Hn HX z Hz. unfold all_done in HX. apply (li_in _ _ _ I). assert (HP : flat_map pend (g_threads s) = []). { apply flat_map_nil. eapply Forall_impl; [|exact HX]. intros p ->. reflexivity. }
    rewrite HP. split; [|split; [exact Hz | reflexivity]].
    assert (HT : todo (g_man s) = []). { apply (li_exit _ _ _ I). assert (Hlen : length (g_threads s) = n). { clear -R. induction R as [|s s' R IH St]; [apply repeat_length|]. destruct St; cbn [g_threads] in *; rewrite app_length in *; cbn [length] in *; exact IH. }
      destruct (g_threads s) as [|p ps]; [cbn [length] in Hlen; lia|]. inversion HX as [|? ? E _]; subst. left. reflexivity. }
    pose proof (li_max _ _ _ I) as EM. cbn [m pm_make pm_max] in EM. unfold todo in HT. destruct (N.ltb_spec (pm_max (g_man s)) (pm_z (g_man s))) as [Lt|Lt]; [lia|]. exfalso. destruct (li_man _ _ _ I) as [_ Hr]. destruct (pm_rest (g_man s)); [congruence | discriminate HT].
Qed.
Lemma log_goes_on features max m n size s : make_prepare_manager features max = Ok m -> log_reach size m n s ->
  all_done s \/ exists s', log_step size s s'.
Proof.
  intros HM R. destruct (manager_ok _ _ _ HM) as (x0 & y0 & x1 & y1 & -> & Hx & Hy & Hne & Hrect).
  set (m := pm_make (base_of x0 y0 x1 y1) max) in *.
  assert (M1 : man_ok m). { split; [|apply on_z_nonempty; assumption]. intros z. apply on_z_nonempty; assumption. }
  pose proof (linv_reach size m n s M1 (range_level _ _) eq_refl R) as I.
  assert (HB : Forall (fun p => p <> LTiles []) (g_threads s)).
  { clear -R. induction R as [|s s' R IH St]; [apply Forall_forall; intros p Hp; apply repeat_spec in Hp; subst p; discriminate|]. destruct St; cbn [g_threads] in *; apply Forall_app in IH as [I1 I2]; inversion I2 as [|? ? _ I3]; subst; apply Forall_app; (split; [assumption|]); constructor; try assumption; destruct b; discriminate. }
  assert (D : Forall (fun p => p = LExit) (g_threads s) \/ exists t1 p t2, g_threads s = t1 ++ p :: t2 /\ p <> LExit).
  { clear. induction (g_threads s) as [|p ps IH]; [left; constructor|]. destruct p as [|b|]; [right; exists [], LTop, ps; split; [reflexivity | discriminate] | right; exists [], (LTiles b), ps; split; [reflexivity | discriminate]|].
    destruct IH as [IH|(t1 & p & t2 & -> & Hp)]; [left; constructor; auto | right; exists (LExit :: t1), p, t2; auto]. }
  destruct D as [D|(t1 & p & t2 & E & Hp)]; [now left|]. right. destruct p as [|b|]; [| |congruence].
  - destruct (get_batch_stats_ok size m s I) as (b & m' & st' & Eb). destruct s as [ms st th lg dn]. cbn [g_man g_stats g_threads] in *. subst th. eexists. apply lg_batch. exact Eb.
  - destruct b as [|t b]; [rewrite E in HB; apply Forall_app in HB as [_ HB]; inversion HB; congruence|]. destruct (finish_ok size m s t1 t b t2 0 I E) as ([st' out] & Ef). destruct s as [ms st th lg dn]. cbn [g_man g_stats g_threads] in *. subst th. eexists. apply (lg_finish size ms st st' t b t1 t2 lg out 0 dn). exact Ef.
Qed.
