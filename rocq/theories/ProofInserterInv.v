(** Invariants of the feature inserter. *)
From Coq Require Import Permutation Sorted.
From Verif Require Import Base BaseProof ModelTile SpecTile ProofTile ModelPackFile SpecPackFile ProofPackFile ModelGeom ModelFeature ModelCodec ModelPack SpecPack ProofPack
  ModelTable ProofTable ModelRender ModelPrepare ProofPrepare ProofPerm ProofDrain ModelInserter SpecInserter ProofInserter.
Open Scope N_scope.

Section Inv.
Variables z upper lower : N.
Variable srt : list (N * nat) -> list (N * nat).
Hypothesis srt_perm : forall l, Permutation (srt l) l.
Variable T0 : table.
Variable s0 : pfile.
Variable n : nat.
Hypothesis T0_sorted : table_sorted T0.
Hypothesis s0_inv : pf_inv s0.
Notation step := (istep z upper lower srt).
Notation reach := (ireach z upper lower srt T0 s0 n).

Ltac proj := cbn [i_cache i_buckets i_flock i_wlock i_table i_file i_threads i_calls i_final th_pc th_counted fst snd] in *.

Definition scanning (t : ithread) : N := match th_pc t with FCheck2 _ | FScan _ _ _ | FLoop _ _ _ | FTake _ _ _ _ => 1 | _ => 0 end.
Definition writing (t : ithread) : N := match th_pc t with FPut _ _ _ _ => 1 | _ => 0 end.
Definition qtiles (q : list (tile * list bytes)) : Prop := Forall (fun e => index_tile z (fst e)) q.
Definition claimed (pc : ipc) : list nat :=
  match pc with FScan _ acc rest => map snd acc ++ rest | FLoop _ l _ => map snd l | FTake _ i l _ => i :: map snd l | _ => [] end.
Definition tok (len : nat) (t : ithread) : Prop :=
  Forall (fun i => (i < len)%nat) (claimed (th_pc t)) /\
  match th_pc t with
  | IIdle | IDone => th_counted t = 0
  | IPut j _ => blen (snd j) <= th_counted t
  | FLoop _ _ q | FTake _ _ _ q => qtiles q
  | FBegin _ q => qtiles q /\ th_counted t = 0
  | FPut _ dn rest W => qtiles dn /\ qtiles rest /\ table_sorted W /\ th_counted t = 0
  | _ => True
  end.

Record invA (s : ist) : Prop := {
  a_tiles : map b_tile (i_buckets s) = world_tiles z;
  a_sorted : table_sorted (i_table s);
  a_file : pf_inv (i_file s);
  a_flock : sumN scanning (i_threads s) = if i_flock s then 1 else 0;
  a_wlock : sumN writing (i_threads s) = if i_wlock s then 1 else 0;
  a_ok : Forall (tok (length (i_buckets s))) (i_threads s) }.

Lemma bucket_index (bs : list bucket) b1 b b2 : bs = b1 ++ b :: b2 -> map b_tile bs = world_tiles z -> index_tile z (b_tile b).
Proof. intros -> H. apply world_In. rewrite <- H. apply in_map. apply in_elt. Qed.
Lemma qtiles_app a b : qtiles (a ++ b) <-> qtiles a /\ qtiles b.
Proof. apply Forall_app. Qed.
Lemma qtiles_cons e q : qtiles (e :: q) <-> index_tile z (fst e) /\ qtiles q.
Proof. apply Forall_cons_iff. Qed.

Lemma scanning_flushed (d : bool) m : scanning (ITh (flushed d) m) = 0.
Proof. destruct d; reflexivity. Qed.
Lemma writing_flushed (d : bool) m : writing (ITh (flushed d) m) = 0.
Proof. destruct d; reflexivity. Qed.
Lemma tok_flushed (d : bool) len : tok len (ITh (flushed d) 0).
Proof. destruct d; split; cbn; auto. Qed.

Lemma after_scan_claimed d acc : incl (claimed (after_scan srt d acc)) (map snd acc).
Proof.
  unfold after_scan. destruct acc as [|e acc]; [destruct d; intros ? []|]. cbn [claimed]. intros i Hi.
  eapply Permutation_in; [|exact Hi]. apply Permutation_map, srt_perm.
Qed.

Ltac step_cases St :=
  destruct St as [c bs fl wl T s t1 t2 m cs f js Hj|c bs fl wl T s t1 t2 m cs f Hj|c bs fl wl T s t1 t2 m cs fin j js
    |c b1 b b2 fl wl T s t1 t2 m cs fin j js Hg|c bs fl wl T s t1 t2 m cs fin j js Hg|c bs fl wl T s t1 t2 m cs fin
    |c bs fl wl T s t1 t2 m cs fin d Hc|c bs fl wl T s t1 t2 m cs fin d Hc|c bs wl T s t1 t2 m cs fin d
    |c bs fl wl T s t1 t2 m cs fin d Hc|c bs fl wl T s t1 t2 m cs fin d Hc|c bs fl wl T s t1 t2 m cs fin d acc i rest b Hb
    |c bs fl wl T s t1 t2 m cs fin d acc|c bs fl wl T s t1 t2 m cs fin d e l q Hc|c bs fl wl T s t1 t2 m cs fin d e l q Hc
    |c bs fl wl T s t1 t2 m cs fin d q|c b1 b b2 fl wl T s t1 t2 m cs fin d l q|c bs fl T s t1 t2 m cs fin d q
    |c bs fl wl T s t1 t2 m cs fin d dn e rest W W' s' Hf|c bs fl wl T s t1 t2 m cs fin d dn e rest W Hf
    |c bs fl wl T s t1 t2 m cs fin d dn W|c bs fl wl T s ts cs Hq].

Lemma stepA s s' : invA s -> step s s' -> invA s'.
Proof.
  intros [At As Af Al Aw Ao] St.
  step_cases St; proj.
  all: try (rewrite sumN_mid in Al, Aw; apply Forall_mid in Ao as [[Oc Oo] Ao]; cbn [th_pc th_counted scanning writing claimed] in *).
  all: try (split; proj; rewrite ?sumN_mid; cbn [scanning writing th_pc];
    [assumption|assumption|assumption|rewrite ?scanning_flushed; try assumption|rewrite ?writing_flushed; try assumption|apply Forall_mid; split; [|try assumption]]).
  all: try (now (apply tok_flushed)).
  all: try (split; cbn [claimed th_pc th_counted]; auto; fail).
  all: try (destruct fl; lia). all: try (destruct wl; lia).
  - (* count *) split; [constructor|]. cbn [th_pc th_counted]. lia.
  - (* put *) split; proj; rewrite ?sumN_mid; cbn [scanning writing th_pc]; auto.
    + rewrite map_app in *. exact At.
    + apply Forall_mid. split; [split; cbn; auto|]. rewrite app_length in *. exact Ao.
  - (* check2 *) split; [|exact I]. cbn [claimed th_pc map app]. apply Forall_forall. intros i Hi. apply in_seq in Hi. lia.
  - (* scan *) split; [|exact I]. cbn [claimed th_pc]. apply Forall_app in Oc as [O1 O2]. apply Forall_cons_iff in O2 as [O2 O3].
    destruct (0 <? b_size b); rewrite ?map_app, !Forall_app; cbn [map]; auto.
  - destruct acc as [|x acc]; cbn [after_scan scan_keeps scanning th_pc]; [rewrite scanning_flushed|]; destruct fl; lia.
  - destruct acc as [|x acc]; cbn [after_scan scan_keeps writing th_pc]; [rewrite writing_flushed|]; destruct wl; lia.
  - destruct acc as [|x acc]; cbn [after_scan scan_keeps]; [apply tok_flushed|]. split; [|constructor].
    cbn [th_pc claimed]. rewrite app_nil_r in Oc. apply Forall_forall. intros i Hi.
    apply (proj1 (Forall_forall _ _) Oc). eapply Permutation_in; [|exact Hi]. apply Permutation_map, srt_perm.
  - (* take *) apply Forall_cons_iff in Oc as [_ Oc].
    split; proj; rewrite ?sumN_mid; cbn [scanning writing th_pc]; auto.
    + rewrite map_app in *. exact At.
    + apply Forall_mid. rewrite app_length in *. split; [|exact Ao]. split; [exact Oc|]. cbn [th_pc].
      apply qtiles_app. split; [exact Oo|]. repeat constructor; eapply (bucket_index _ _ _ _ eq_refl At).
  - (* begin *) destruct Oo as [Oq O0]. split; [constructor|]. cbn [th_pc th_counted]. repeat split; auto. constructor.
  - (* write *) destruct Oo as (Od & Or & Ow & O0). destruct (flush_put_spec _ _ _ _ _ _ Hf Ow Af) as [Sw G].
    apply qtiles_cons in Or as [Or1 Or2].
    split; proj; rewrite ?sumN_mid; cbn [scanning writing th_pc]; auto.
    + apply G.
    + apply Forall_mid. split; [|exact Ao]. split; [constructor|]. cbn [th_pc th_counted]. repeat split; auto.
      apply qtiles_app. split; [exact Od|]. constructor; [exact Or1|constructor].
  - (* commit *) destruct Oo as (Od & _ & Ow & O0).
    split; proj; rewrite ?sumN_mid, ?scanning_flushed, ?writing_flushed; auto.
    + destruct wl; lia.
    + apply Forall_mid. split; [apply tok_flushed|exact Ao].
  - rewrite N.add_0_l. cbn [sumN fold_right]. rewrite N.add_0_r. exact Al.
  - rewrite N.add_0_l. cbn [sumN fold_right]. rewrite N.add_0_r. exact Aw.
  - rewrite app_nil_r. exact Ao.
Qed.

Lemma initA : invA (ist_init z T0 s0 n).
Proof.
  assert (E : forall f : ithread -> N, f (ITh IIdle 0) = 0 -> sumN f (repeat (ITh IIdle 0) n) = 0).
  { intros f Hf. apply sumN_zero. intros x Hx. apply repeat_spec in Hx. subst. exact Hf. }
  split; unfold ist_init; proj; auto.
  - unfold init_buckets. rewrite map_map. cbn [b_tile]. apply map_id.
  - apply Forall_forall. intros t Ht. apply repeat_spec in Ht. subst. split; [constructor|reflexivity].
Qed.
Lemma reachA s : reach s -> invA s.
Proof. induction 1 as [|s s' _ IH St]; [apply initA|]. eapply stepA; eauto. Qed.

(** ** nothing is lost *)
Definition qjobs (q : list (tile * list bytes)) : list (tile * bytes) := flat_map (fun e => map (pair (fst e)) (snd e)) q.
Definition bjobs (b : bucket) : list (tile * bytes) := map (pair (b_tile b)) (b_mem b).
Definition pjobs (t : ithread) : list (tile * bytes) :=
  match th_pc t with
  | ICount js => js | IPut j js => j :: js
  | FLoop _ _ q | FTake _ _ _ q | FBegin _ q => qjobs q
  | FPut _ dn rest _ => qjobs dn ++ qjobs rest
  | _ => []
  end.
Definition ljobs (t : ithread) : list (tile * bytes) := match th_pc t with IFailed l => qjobs l | _ => [] end.
Definition all_jobs (fs : list icall) : list (tile * bytes) :=
  flat_map (fun f => match call_jobs z f with Ok js => js | _ => [] end) fs.

Lemma qjobs_app a b : qjobs (a ++ b) = qjobs a ++ qjobs b.
Proof. apply flat_map_app. Qed.
Lemma qjobs_single js : qjobs (map (fun e : tile * bytes => (fst e, [snd e])) js) = js.
Proof. unfold qjobs. induction js as [|[t v] js IH]; [reflexivity|]. cbn [map flat_map fst snd app]. now rewrite IH. Qed.
Lemma vals_q t e : vals t (qjobs [e]) = if tile_eqb t (fst e) then snd e else [].
Proof.
  unfold qjobs, vals. cbn [flat_map]. rewrite app_nil_r. destruct (tile_eqb t (fst e)) eqn:E; induction (snd e) as [|v l IH]; try reflexivity.
  - cbn [map filter fst]. rewrite E. cbn [map snd]. now rewrite IH.
  - cbn [map filter fst]. rewrite E. exact IH.
Qed.
Lemma pjobs_flushed (d : bool) m : pjobs (ITh (flushed d) m) = [].
Proof. destruct d; reflexivity. Qed.
Lemma ljobs_flushed (d : bool) m : ljobs (ITh (flushed d) m) = [].
Proof. destruct d; reflexivity. Qed.
Lemma pjobs_scan (d : bool) acc m : pjobs (ITh (after_scan srt d acc) m) = [].
Proof. destruct acc; [apply pjobs_flushed|reflexivity]. Qed.
Lemma ljobs_scan (d : bool) acc m : ljobs (ITh (after_scan srt d acc) m) = [].
Proof. destruct acc; [apply ljobs_flushed|reflexivity]. Qed.

Variable old : tile -> list bytes.
Hypothesis old_ok : forall t, index_tile z t -> stored T0 s0 t (old t).

Definition content (T : table) (s : pfile) (comm : list (tile * bytes)) : Prop :=
  (forall t, index_tile z t -> stored T s t (old t ++ vals t comm)) /\
  (forall k, (forall t, index_tile z t -> tile_to_key t 0 <> Ok k) -> table_get T k = table_get T0 k).
Definition wcontent (s : pfile) (comm : list (tile * bytes)) (t : ithread) : Prop :=
  match th_pc t with FPut _ dn _ W => content W s (comm ++ qjobs dn) | _ => True end.

Definition conserve (s : ist) (comm : list (tile * bytes)) : Prop :=
  Permutation (all_jobs (i_calls s)) (flat_map bjobs (i_buckets s) ++ flat_map pjobs (i_threads s) ++ flat_map ljobs (i_threads s) ++ comm).
Definition invB (s : ist) : Prop :=
  exists comm, conserve s comm /\
    (blen (pf_mem (i_file s)) < 2 ^ 64 -> content (i_table s) (i_file s) comm /\ Forall (wcontent (i_file s) comm) (i_threads s)).

Lemma content_grows T s s' comm : grows s s' -> blen (pf_mem s') < 2 ^ 64 -> content T s comm -> content T s' comm.
Proof. intros G H [C1 C2]. split; [|exact C2]. intros t Ht. eapply stored_file; eauto. Qed.
Lemma wcontent_grows s s' comm t : grows s s' -> blen (pf_mem s') < 2 ^ 64 -> wcontent s comm t -> wcontent s' comm t.
Proof. unfold wcontent. intros G H. destruct (th_pc t); auto. now apply content_grows. Qed.
Lemma wcontent_flushed s comm (d : bool) m : wcontent s comm (ITh (flushed d) m).
Proof. destruct d; exact I. Qed.
Lemma wcontent_scan s comm (d : bool) acc m : wcontent s comm (ITh (after_scan srt d acc) m).
Proof. destruct acc; [apply wcontent_flushed|exact I]. Qed.
Lemma not_writing s comm ts : sumN writing ts = 0 -> Forall (wcontent s comm) ts.
Proof.
  intros H. apply Forall_forall. intros t Ht. pose proof (sumN_In writing ts t Ht) as L. rewrite H in L.
  unfold wcontent, writing in *. destruct (th_pc t); auto. lia.
Qed.

Lemma thread_perm t1 t t2 (X Y : list (tile * bytes)) :
  Permutation (X ++ flat_map pjobs (t1 ++ t :: t2) ++ flat_map ljobs (t1 ++ t :: t2) ++ Y)
              (X ++ (pjobs t ++ ljobs t) ++ flat_map pjobs (t1 ++ t2) ++ flat_map ljobs (t1 ++ t2) ++ Y).
Proof. perm. Qed.
(** a step of one thread that only moves its own jobs *)
Lemma move_own X Y P t1 t t2 t' : Permutation P (X ++ flat_map pjobs (t1 ++ t :: t2) ++ flat_map ljobs (t1 ++ t :: t2) ++ Y) ->
  Permutation (pjobs t ++ ljobs t) (pjobs t' ++ ljobs t') ->
  Permutation P (X ++ flat_map pjobs (t1 ++ t' :: t2) ++ flat_map ljobs (t1 ++ t' :: t2) ++ Y).
Proof. intros H1 H2. rewrite H1, !thread_perm, H2. reflexivity. Qed.

Lemma flat_two {A B} (f : A -> list B) a x b : flat_map f (a ++ x :: b) = flat_map f a ++ f x ++ flat_map f b.
Proof. rewrite flat_map_app. reflexivity. Qed.

Lemma get_bucket_tile b1 b b2 t : get_bucket (b1 ++ b :: b2) t = Ok (length b1) -> b_tile b = t.
Proof.
  intros H. destruct (get_bucket_cases (b1 ++ b :: b2) t) as [E|(i & b' & E & Hn & Hb)]; rewrite H in E; [discriminate|].
  apply Ok_inj in E. subst i. rewrite nth_error_app2, Nat.sub_diag in Hn by lia. cbn [nth_error] in Hn. injection Hn as <-. exact Hb.
Qed.
Lemma stepB s s' : invA s -> invB s -> step s s' -> invB s'.
Proof.
  intros A (comm & P & C) St. destruct A as [At As Af Al Aw Ao]. unfold conserve in P.
  step_cases St; proj.
  all: try (exists comm; unfold conserve; proj; split;
    [eapply move_own; [exact P|]; rewrite ?pjobs_flushed, ?ljobs_flushed, ?pjobs_scan, ?ljobs_scan; cbn [pjobs ljobs th_pc app]; try reflexivity
    |intros Hs; specialize (C Hs) as [C1 C2]; split; [exact C1|]; apply Forall_mid in C2 as [C2 C3]; apply Forall_mid; split;
       [rewrite ?pjobs_flushed; try exact I; try apply wcontent_flushed; try apply wcontent_scan|exact C3]]; fail).
  - (* call *) exists comm. unfold conserve. proj. split.
    + unfold all_jobs in *. rewrite flat_map_app. cbn [flat_map]. rewrite Hj, app_nil_r, P, !thread_perm. cbn [pjobs ljobs th_pc app]. perm.
    + intros Hs. destruct (C Hs) as [C1 C2]. split; [exact C1|]. apply Forall_mid in C2 as [_ C2]. apply Forall_mid. split; [exact I|exact C2].
  - (* failing call *) exists comm. unfold conserve. proj. split.
    + unfold all_jobs in *. rewrite flat_map_app. cbn [flat_map]. rewrite Hj, !app_nil_r, P, !thread_perm. cbn [pjobs ljobs th_pc app qjobs flat_map]. reflexivity.
    + intros Hs. destruct (C Hs) as [C1 C2]. split; [exact C1|]. apply Forall_mid in C2 as [_ C2]. apply Forall_mid. split; [exact I|exact C2].
  - (* put *) apply get_bucket_tile in Hg. exists comm. unfold conserve. proj. split.
    + rewrite P, !thread_perm. rewrite !flat_two. cbn [pjobs ljobs th_pc app].
      assert (E : bjobs (bucket_add b (snd j)) = bjobs b ++ [j]).
      { unfold bjobs, bucket_add. cbn [b_tile b_mem]. rewrite map_app. cbn [map]. rewrite Hg. destruct j; reflexivity. }
      rewrite E. perm.
    + intros Hs. destruct (C Hs) as [C1 C2]. split; [exact C1|]. apply Forall_mid in C2 as [_ C2]. apply Forall_mid. split; [exact I|exact C2].
  - (* failing put *) exists comm. unfold conserve. proj. split.
    + eapply move_own; [exact P|]. cbn [pjobs ljobs th_pc app]. rewrite qjobs_single, app_nil_r. reflexivity.
    + intros Hs. destruct (C Hs) as [C1 C2]. split; [exact C1|]. apply Forall_mid in C2 as [_ C2]. apply Forall_mid. split; [exact I|exact C2].
  - (* take *) exists comm. unfold conserve. proj. split.
    + rewrite P, !thread_perm. rewrite !flat_two. cbn [pjobs ljobs th_pc app]. rewrite qjobs_app.
      assert (E : qjobs [(b_tile b, b_mem b)] = bjobs b) by (unfold qjobs, bjobs; cbn [flat_map fst snd]; apply app_nil_r).
      assert (E' : bjobs (bucket_take b) = []) by reflexivity. rewrite E, E'. perm.
    + intros Hs. destruct (C Hs) as [C1 C2]. split; [exact C1|]. apply Forall_mid in C2 as [_ C2]. apply Forall_mid. split; [exact I|exact C2].
  - (* begin *) exists comm. unfold conserve. proj. split.
    + eapply move_own; [exact P|]. cbn [pjobs ljobs th_pc app qjobs flat_map]. reflexivity.
    + intros Hs. destruct (C Hs) as [C1 C2]. split; [exact C1|]. apply Forall_mid in C2 as [_ C2]. apply Forall_mid. split; [|exact C2].
      cbn [wcontent th_pc]. rewrite app_nil_r. exact C1.
  - (* write *) apply Forall_mid in Ao as [[_ Oo] Ao]. cbn [th_pc] in Oo. destruct Oo as (Od & Or & Ow & O0).
    destruct (flush_put_spec _ _ _ _ _ _ Hf Ow Af) as [Sw G].
    exists comm. unfold conserve. proj. split.
    + eapply move_own; [exact P|]. cbn [pjobs ljobs th_pc app]. rewrite qjobs_app. cbn [qjobs flat_map]. rewrite !app_nil_r, <- app_assoc. reflexivity.
    + intros Hs. assert (Hs0 : blen (pf_mem s) < 2 ^ 64) by (destruct G as (_ & _ & _ & G & _); lia).
      destruct (C Hs0) as [C1 C2]. split; [eapply content_grows; eauto|].
      apply Forall_mid in C2 as [C2 C3]. apply Forall_mid. split.
      * cbn [wcontent th_pc] in C2 |- *. destruct (flush_put_stored _ _ _ _ _ _ Hf Ow Af Hs) as (F1 & F2 & F3). destruct C2 as [C4 C5].
        apply qtiles_cons in Or as [Or1 _]. split.
        -- intros t Ht. specialize (C4 t Ht). rewrite qjobs_app, app_assoc, vals_app, vals_q.
           destruct (tile_eqb t (fst e)) eqn:E.
           ++ apply tile_eqb_eq in E. subst t. rewrite app_assoc. apply F1. exact C4.
           ++ rewrite app_nil_r. apply F2; [|exact C4]. intros ->. rewrite (proj2 (tile_eqb_eq _ _) eq_refl) in E. discriminate.
        -- intros k Hk. rewrite F3 by (apply Hk; exact Or1). apply C5. exact Hk.
      * eapply Forall_impl; [|exact C3]. intros t. now apply wcontent_grows.
  - (* failing write *) exists comm. unfold conserve. proj. split.
    + eapply move_own; [exact P|]. cbn [pjobs ljobs th_pc app]. rewrite qjobs_app, app_nil_r. reflexivity.
    + intros Hs. destruct (C Hs) as [C1 C2]. split; [exact C1|]. apply Forall_mid in C2 as [_ C2]. apply Forall_mid. split; [exact I|exact C2].
  - (* commit *) exists (comm ++ qjobs dn). unfold conserve. proj. split.
    + rewrite P, !thread_perm, pjobs_flushed, ljobs_flushed. cbn [pjobs ljobs th_pc app qjobs flat_map]. rewrite !app_nil_r. perm.
    + intros Hs. destruct (C Hs) as [C1 C2]. apply Forall_mid in C2 as [C2 C3]. cbn [wcontent th_pc] in C2. split; [exact C2|].
      apply Forall_mid. split; [apply wcontent_flushed|]. apply not_writing. rewrite sumN_mid in Aw. rewrite sumN_app.
      cbn [writing th_pc] in Aw. destruct wl; lia.
  - (* destroy *) exists comm. unfold conserve. proj. split.
    + rewrite P, !flat_map_app. cbn [flat_map pjobs ljobs th_pc app]. rewrite !app_nil_r. reflexivity.
    + intros Hs. destruct (C Hs) as [C1 C2]. split; [exact C1|]. apply Forall_app. split; [exact C2|]. constructor; [exact I|constructor].
Qed.

Lemma initB : invB (ist_init z T0 s0 n).
Proof.
  exists []. unfold conserve, ist_init. proj. split.
  - assert (E1 : flat_map bjobs (init_buckets z) = []).
    { unfold init_buckets. induction (range_tiles _ z) as [|t l IH]; [reflexivity|]. cbn [map flat_map]. exact IH. }
    rewrite E1. clear. induction n as [|m IH]; [constructor|]. exact IH.
  - intros _. split.
    + split; [|auto]. intros t Ht. cbn [vals filter map]. unfold vals. cbn [filter map]. rewrite app_nil_r. auto.
    + apply Forall_forall. intros t Ht. apply repeat_spec in Ht. subst. exact I.
Qed.
Lemma reachB s : reach s -> invB s.
Proof. induction 1 as [|s s' R IH St]; [apply initB|]. eapply stepB; eauto using reachA. Qed.

(** ** the size of the cache *)
Fixpoint csum (cl : list nat) (k : nat) (bs : list bucket) : N :=
  match bs with [] => 0 | b :: r => (if existsb (Nat.eqb k) cl then b_size b else 0) + csum cl (S k) r end.
Lemma csum_app cl a b : forall k, csum cl k (a ++ b) = csum cl k a + csum cl (k + length a) b.
Proof.
  induction a as [|x a IH]; intros k; cbn [app csum length]; [now rewrite Nat.add_0_r|]. rewrite IH. replace (S k + length a)%nat with (k + S (length a))%nat by lia. rewrite <- N.add_assoc. reflexivity.
Qed.
Lemma memb_In k l : existsb (Nat.eqb k) l = true <-> In k l.
Proof. rewrite existsb_exists. split. - intros (x & Hx & E). apply Nat.eqb_eq in E. now subst. - intros H. exists k. rewrite Nat.eqb_refl. auto. Qed.
Lemma csum_incl c1 c2 bs : forall k, (forall i b, nth_error bs i = Some b -> In (k + i)%nat c1 -> In (k + i)%nat c2 \/ b_size b = 0) -> csum c1 k bs <= csum c2 k bs.
Proof.
  induction bs as [|b bs IH]; intros k H; cbn [csum]; [lia|].
  assert (H1 : csum c1 (S k) bs <= csum c2 (S k) bs).
  { apply IH. intros i b' Hb Hi. replace (S k + i)%nat with (k + S i)%nat in * by lia. apply H; auto. }
  specialize (H 0%nat b eq_refl). rewrite Nat.add_0_r in H.
  destruct (existsb (Nat.eqb k) c1) eqn:E1; [|lia]. apply memb_In in E1. destruct (H E1) as [H2|H2].
  - apply memb_In in H2. rewrite H2. lia. - rewrite H2. destruct (existsb (Nat.eqb k) c2); lia.
Qed.
Lemma csum_all bs : forall k cl, (forall i, (i < length bs)%nat -> In (k + i)%nat cl) -> csum cl k bs = sumN b_size bs.
Proof.
  induction bs as [|b bs IH]; intros k cl H; [reflexivity|]. cbn [csum sumN fold_right]. fold (sumN b_size bs).
  rewrite (proj2 (memb_In k cl)). 2:{ specialize (H 0%nat). rewrite Nat.add_0_r in H. apply H. cbn [length]. lia. }
  rewrite IH; [reflexivity|]. intros i Hi. replace (S k + i)%nat with (k + S i)%nat by lia. apply H. cbn [length]. lia.
Qed.
Lemma csum_le cl bs : forall k, csum cl k bs <= sumN b_size bs.
Proof. induction bs as [|b bs IH]; intros k; cbn [csum sumN fold_right]; [lia|]. fold (sumN b_size bs). specialize (IH (S k)). destruct (existsb _ cl); lia. Qed.
Lemma csum_nil bs : forall k, csum [] k bs = 0.
Proof. induction bs as [|b bs IH]; intros k; cbn [csum existsb]; [reflexivity|]. now rewrite IH. Qed.
Lemma csum_add cl b1 b b2 v : csum cl 0 (b1 ++ b :: b2) <= csum cl 0 (b1 ++ bucket_add b v :: b2).
Proof. rewrite !csum_app. cbn [csum bucket_add b_size]. destruct (existsb _ cl); lia. Qed.
Lemma csum_take cl b1 b b2 : csum (length b1 :: cl) 0 (b1 ++ b :: b2) <= b_size b + csum cl 0 (b1 ++ bucket_take b :: b2).
Proof.
  rewrite !csum_app. cbn [csum bucket_take b_size Nat.add].
  assert (E1 : csum (length b1 :: cl) 0 b1 <= csum cl 0 b1).
  { apply csum_incl. intros i x Hx [Hi|Hi]; [|auto]. assert (i < length b1)%nat by (apply nth_error_Some; congruence). lia. }
  assert (E2 : csum (length b1 :: cl) (S (length b1)) b2 <= csum cl (S (length b1)) b2).
  { apply csum_incl. intros i x Hx [Hi|Hi]; [|auto]. lia. }
  destruct (existsb (Nat.eqb (length b1)) (length b1 :: cl)), (existsb (Nat.eqb (length b1)) cl); lia.
Qed.

Definition hold0 (t : ithread) : N := match th_pc t with IPut j _ => blen (snd j) | _ => 0 end.
Definition hold (t : ithread) : N := match th_pc t with IPut j _ => blen (snd j) | IFailed _ => th_counted t | _ => 0 end.
Definition scans (pc : ipc) : Prop := match pc with FScan _ _ _ | FLoop _ _ _ | FTake _ _ _ _ => True | _ => False end.
Definition claim_ok (cache : N) (bs : list bucket) (total : N) (t : ithread) : Prop :=
  scans (th_pc t) -> cache + th_counted t <= upper + total + csum (claimed (th_pc t)) 0 bs.

Record invC (s : ist) : Prop := {
  c_size : Forall (fun b => b_size b = mem_bytes b) (i_buckets s);
  c_lo : sumN b_size (i_buckets s) + sumN hold0 (i_threads s) <= i_cache s;
  c_hi : i_cache s <= sumN b_size (i_buckets s) + sumN hold (i_threads s);
  c_bound : i_cache s <= upper + sumN th_counted (i_threads s);
  c_claim : Forall (claim_ok (i_cache s) (i_buckets s) (sumN th_counted (i_threads s))) (i_threads s) }.

Hypothesis low_up : lower <= upper.

Lemma sumN_le {A} (f g : A -> N) l : Forall (fun x => f x <= g x) l -> sumN f l <= sumN g l.
Proof. induction 1 as [|x l H _ IH]; [cbn; lia|]. cbn [sumN fold_right]. fold (sumN f l). fold (sumN g l). lia. Qed.
Lemma hold_counted len ts : Forall (tok len) ts -> sumN hold ts <= sumN th_counted ts.
Proof.
  intros H. apply sumN_le. eapply Forall_impl; [|exact H]. intros t [_ Ht]. unfold hold. destruct (th_pc t); try lia.
Qed.
Lemma not_scanning ts t : sumN scanning ts = 0 -> In t ts -> ~ scans (th_pc t).
Proof.
  intros H Ht Hc. pose proof (sumN_In scanning ts t Ht) as L. rewrite H in L. unfold scanning in L. destruct (th_pc t); cbn [scans] in Hc; try contradiction; lia.
Qed.
Lemma claims_others cache bs total ts : sumN scanning ts = 0 -> Forall (claim_ok cache bs total) ts.
Proof. intros H. apply Forall_forall. intros t Ht Hc. exfalso. eapply not_scanning; eauto. Qed.
Lemma mem_add b v : mem_bytes (bucket_add b v) = mem_bytes b + blen v.
Proof.
  unfold mem_bytes, bucket_add. cbn [b_mem]. rewrite fold_right_app. cbn [fold_right]. rewrite N.add_0_r.
  induction (b_mem b) as [|x l IH]; cbn [fold_right]; lia.
Qed.
Lemma hold0_flushed (d : bool) m : hold0 (ITh (flushed d) m) = 0. Proof. destruct d; reflexivity. Qed.
Lemma hold_flushed (d : bool) m : hold (ITh (flushed d) m) = 0. Proof. destruct d; reflexivity. Qed.
Lemma claim_flushed c bs tot (d : bool) m : claim_ok c bs tot (ITh (flushed d) m).
Proof. destruct d; intros []. Qed.
Lemma claims_mono c c' bs bs' tot tot' ts : Forall (claim_ok c bs tot) ts ->
  (forall cl, c' + tot + csum cl 0 bs <= c + tot' + csum cl 0 bs') -> Forall (claim_ok c' bs' tot') ts.
Proof. intros H E. eapply Forall_impl; [|exact H]. intros t Ht Hs. specialize (Ht Hs). specialize (E (claimed (th_pc t))). lia. Qed.
Lemma claims_low c bs ts : c <= upper -> Forall (claim_ok c bs (sumN th_counted ts)) ts.
Proof.
  intros H. apply Forall_forall. intros t Ht _. pose proof (sumN_In th_counted ts t Ht). lia.
Qed.
Lemma up_le (d : bool) : up upper d <= upper.
Proof. destruct d; cbn [up]; lia. Qed.
Lemma low_le (d : bool) : low lower d <= upper.
Proof. destruct d; cbn [low]; lia. Qed.

Ltac openC := split; proj; rewrite ?sumN_mid, ?hold0_flushed, ?hold_flushed; cbn [hold0 hold th_pc th_counted]; try assumption; try lia.
Lemma stepC s s' : invA s -> invC s -> step s s' -> invC s'.
Proof.
  intros A [Cs Cl Ch Cb Cc] St. destruct A as [At As Af Al Aw Ao].
  step_cases St; proj.
  all: try (pose proof (hold_counted _ _ Ao) as HC; rewrite sumN_mid in Al, Cl, Ch, Cb; rewrite !sumN_mid in HC; rewrite sumN_mid in Cc;
    apply Forall_mid in Ao as [[Oc Oo] Ao]; pose proof (proj1 (Forall_mid _ _ _ _) Cc) as [C1 C2]; cbn [th_pc th_counted hold0 hold scanning claimed] in *).
  all: try (split; proj; rewrite ?sumN_mid, ?hold0_flushed, ?hold_flushed; cbn [hold0 hold th_pc th_counted]; try assumption; try lia;
     apply Forall_mid; split; [intros []|]; exact C2).
  all: try (lazymatch type of Oo with (_ = 0) => subst end).
  - (* call *) openC. apply Forall_mid. split; [intros []|]. eapply claims_mono; [exact C2|]. intros cl. lia.
  - openC. apply Forall_mid. split; [intros []|]. eapply claims_mono; [exact C2|]. intros cl. lia.
  - (* count *) openC. apply Forall_mid. split; [intros []|]. eapply claims_mono; [exact C2|]. intros cl. lia.
  - (* put *) rewrite sumN_mid in Cl, Ch. openC.
    + apply Forall_mid in Cs as [S1 S2]. apply Forall_mid. split; [|exact S2]. rewrite mem_add. cbn [bucket_add b_size]. lia.
    + rewrite ?sumN_mid. cbn [bucket_add b_size]. lia.
    + rewrite ?sumN_mid. cbn [bucket_add b_size]. lia.
    + apply Forall_mid. split; [intros []|]. eapply claims_mono; [exact C2|]. intros cl. pose proof (csum_add cl b1 b b2 (snd j)). lia.
  - (* check1 *) pose proof (up_le d). openC.
    apply Forall_mid. split; [apply claim_flushed|].
    pose proof (claims_low c bs (t1 ++ ITh (flushed d) 0 :: t2) ltac:(lia)) as L. rewrite sumN_mid in L. apply Forall_mid in L. apply L.
  - (* check2 *) pose proof (up_le d). openC.
    apply Forall_mid. split; [apply claim_flushed|].
    pose proof (claims_low c bs (t1 ++ ITh (flushed d) 0 :: t2) ltac:(lia)) as L. rewrite sumN_mid in L. apply Forall_mid in L. apply L.
  - (* start of the scan *) openC. apply Forall_mid. split; [|exact C2]. intros _. cbn [th_pc claimed map app th_counted].
    rewrite csum_all by (intros i Hi; apply in_seq; lia).
    pose proof (hold_counted _ _ Ao) as HO. rewrite !sumN_app in HO. lia.
  - (* scan *) openC. apply Forall_mid. split; [|exact C2]. specialize (C1 I). cbn [th_pc claimed th_counted] in C1.
    intros _. cbn [th_pc claimed th_counted]. etransitivity; [exact C1|]. apply N.add_le_mono_l. apply csum_incl. intros k x Hx Hk.
    cbn [Nat.add] in *. apply in_app_iff in Hk as [Hk|[->|Hk]].
    + left. destruct (0 <? b_size b); rewrite ?map_app, ?in_app_iff; auto.
    + rewrite Hb in Hx. injection Hx as <-. destruct (N.ltb_spec 0 (b_size b)); [left|right; lia].
      rewrite map_app, !in_app_iff. cbn [map In snd]. auto.
    + left. rewrite in_app_iff. auto.
  - (* end of the scan *) assert (H0 : sumN scanning (t1 ++ t2) = 0) by (rewrite sumN_app; destruct fl; lia).
    specialize (C1 I). cbn [th_pc claimed th_counted] in C1. rewrite app_nil_r in C1.
    destruct acc as [|e acc]; cbn [after_scan scan_keeps] in *.
    + cbn [map] in C1. rewrite csum_nil in C1. openC. apply Forall_mid. split; [apply claim_flushed|]. now apply claims_others.
    + openC. apply Forall_mid. split; [|now apply claims_others]. intros _. cbn [th_pc claimed th_counted].
      etransitivity; [exact C1|]. apply N.add_le_mono_l. apply csum_incl. intros k x Hx Hk. left.
      eapply Permutation_in; [|exact Hk]. apply Permutation_map. symmetry. apply srt_perm.
  - (* enough *) pose proof (low_le d). openC. apply Forall_mid. split; [intros []|].
    apply claims_others. rewrite sumN_app. destruct fl; lia.
  - (* more *) openC. apply Forall_mid. split; [|exact C2]. intros _. apply (C1 I).
  - (* all *) specialize (C1 I). cbn [th_pc claimed th_counted map] in C1. rewrite csum_nil in C1. openC.
    apply Forall_mid. split; [intros []|]. apply claims_others. rewrite sumN_app. destruct fl; lia.
  - (* take *) rewrite sumN_mid in Cl, Ch. specialize (C1 I). cbn [th_pc claimed th_counted] in C1.
    pose proof (csum_take (map snd l) b1 b b2) as CT. openC.
    + apply Forall_mid in Cs as [_ S2]. apply Forall_mid. split; [reflexivity|exact S2].
    + rewrite ?sumN_mid. cbn [bucket_take b_size]. lia.
    + apply Forall_mid. split; [|apply claims_others; rewrite sumN_app; destruct fl; lia]. intros _. cbn [th_pc claimed th_counted]. lia.
  - (* commit *) destruct Oo as (_ & _ & _ & ->). openC. apply Forall_mid. split; [apply claim_flushed|exact C2].
  - (* destroy *) split; proj; auto; rewrite ?sumN_mid; cbn [sumN fold_right hold0 hold th_pc th_counted]; fold (sumN hold0 ts); try lia.
    apply Forall_app. split; [|repeat constructor; intros []]. eapply claims_mono; [exact Cc|]. intros cl. lia.
Qed.

Lemma initC : invC (ist_init z T0 s0 n).
Proof.
  assert (E : forall f : ithread -> N, f (ITh IIdle 0) = 0 -> sumN f (repeat (ITh IIdle 0) n) = 0).
  { intros f Hf. apply sumN_zero. intros x Hx. apply repeat_spec in Hx. subst. exact Hf. }
  assert (E2 : sumN b_size (init_buckets z) = 0).
  { apply sumN_zero. intros b Hb. unfold init_buckets in Hb. apply in_map_iff in Hb as (t & <- & _). reflexivity. }
  split; unfold ist_init; proj; rewrite ?E2, ?E by reflexivity; try lia.
  - apply Forall_forall. intros b Hb. unfold init_buckets in Hb. apply in_map_iff in Hb as (t & <- & _). reflexivity.
  - apply Forall_forall. intros t Ht. apply repeat_spec in Ht. subst. intros [].
Qed.
Lemma reachC s : reach s -> invC s.
Proof. induction 1 as [|s s' R IH St]; [apply initC|]. eapply stepC; eauto using reachA. Qed.

(** ** the destructor *)
Definition destr (pc : ipc) : Prop :=
  match pc with
  | FCheck1 d | FLock d | FCheck2 d | FScan d _ _ | FLoop d _ _ | FTake d _ _ _ | FBegin d _ | FPut d _ _ _ => d = true
  | IDone => True
  | _ => False
  end.
Definition dz (bs : list bucket) (pc : ipc) : Prop :=
  match pc with
  | FScan _ _ _ | FLoop _ _ _ | FTake _ _ _ _ => sumN b_size bs <= csum (claimed pc) 0 bs
  | FBegin _ _ | FPut _ _ _ _ | IDone => sumN b_size bs = 0
  | _ => True
  end.
Definition active (t : ithread) : N := match th_pc t with IIdle | IFailed _ => 0 | _ => 1 end.
Definition dok (bs : list bucket) (t : ithread) : Prop := quiet t \/ (destr (th_pc t) /\ dz bs (th_pc t)).
Definition invD (s : ist) : Prop :=
  if i_final s then sumN active (i_threads s) <= 1 /\ Forall (dok (i_buckets s)) (i_threads s)
  else Forall (fun t => ~ destr (th_pc t)) (i_threads s).

Lemma quiet_all bs ts : sumN active ts = 0 -> Forall (dok bs) ts.
Proof.
  intros H. apply Forall_forall. intros t Ht. pose proof (sumN_In active ts t Ht) as L. rewrite H in L. left.
  unfold active, quiet in *. destruct (th_pc t); auto; lia.
Qed.
Lemma active_le t : active t <= 1.
Proof. unfold active. destruct (th_pc t); lia. Qed.

Lemma stepD s s' : invA s -> invC s -> invD s -> step s s' -> invD s'.
Proof.
  intros A [Cs Cl Ch Cb Cc] D St. destruct A as [At As Af Al Aw Ao]. unfold invD in *.
  step_cases St; proj.
  all: try (apply Forall_mid in D as [D1 D2]; apply Forall_mid; split; [intros []|exact D2]; fail).
  all: try (destruct fin; [destruct D as [D0 D]; rewrite sumN_mid in D0; cbn [active th_pc] in D0; apply Forall_mid in D as [[[]|[D1 D2]] _]; cbn [destr dz th_pc] in D1, D2
    |apply Forall_mid in D as [D1 D2]; apply Forall_mid; split; [|exact D2]; cbn [destr dz th_pc] in D1 |- *; auto]).
  all: try contradiction. all: try subst d.
  all: try (split; [rewrite sumN_mid; match goal with |- active ?t + _ <= _ => pose proof (active_le t) end; lia|apply Forall_mid; split; [|apply quiet_all; rewrite sumN_app; lia]]).
  all: try (right; split; [reflexivity|exact I]).
  all: try (destruct d; [congruence|intros []]).
  - (* check1 *) right. split; [exact I|]. cbn [th_pc dz up flushed] in *. lia.
  - (* check2 *) right. split; [exact I|]. cbn [th_pc dz up flushed] in *. lia.
  - (* start of the scan *) right. split; [reflexivity|]. cbn [th_pc dz claimed map app]. rewrite csum_all; [lia|]. intros i Hi. apply in_seq. lia.
  - (* scan *) right. split; [reflexivity|]. cbn [th_pc dz claimed] in *. etransitivity; [exact D2|]. apply csum_incl. intros k x Hx Hk.
    cbn [Nat.add] in *. apply in_app_iff in Hk as [Hk|[->|Hk]].
    + left. destruct (0 <? b_size b); rewrite ?map_app, ?in_app_iff; auto.
    + rewrite Hb in Hx. injection Hx as <-. destruct (N.ltb_spec 0 (b_size b)); [left|right; lia].
      rewrite map_app, !in_app_iff. cbn [map In snd]. auto.
    + left. rewrite in_app_iff. auto.
  - (* end of the scan *) right. cbn [claimed] in D2. rewrite app_nil_r in D2. destruct acc as [|e acc]; cbn [after_scan flushed th_pc destr dz].
    + cbn [map] in D2. rewrite csum_nil in D2. split; [exact I|lia].
    + split; [reflexivity|]. cbn [claimed]. etransitivity; [exact D2|]. apply csum_incl. intros k x Hx Hk. left.
      eapply Permutation_in; [|exact Hk]. apply Permutation_map. symmetry. apply srt_perm.
  - destruct acc; [destruct d; [congruence|]|]; cbn [after_scan flushed destr]; auto.
  - (* enough *) cbn [low] in Hc. lia.
  - (* more *) right. split; [reflexivity|exact D2].
  - (* all *) right. split; [reflexivity|]. cbn [claimed map] in D2. rewrite csum_nil in D2. cbn [th_pc dz]. lia.
  - (* take *) right. split; [reflexivity|]. cbn [th_pc dz claimed] in *. pose proof (csum_take (map snd l) b1 b b2) as CT.
    rewrite sumN_mid in *. cbn [bucket_take b_size]. lia.
  - (* begin *) right. split; [reflexivity|exact D2].
  - (* write *) right. split; [reflexivity|exact D2].
  - (* failing write *) left. exact I.
  - (* commit *) right. split; [exact I|exact D2].
  - (* destroy *) assert (Q : sumN active ts = 0).
    { apply sumN_zero. intros t Ht. pose proof (proj1 (Forall_forall _ _) Hq t Ht) as Hqt. unfold quiet, active in *. destruct (th_pc t); auto; contradiction. }
    split. + rewrite sumN_app, Q. cbn. lia.
    + apply Forall_app. split; [now apply quiet_all|]. constructor; [|constructor]. right. split; [reflexivity|exact I].
Qed.
Lemma initD : invD (ist_init z T0 s0 n).
Proof. unfold invD, ist_init. proj. apply Forall_forall. intros t Ht. apply repeat_spec in Ht. subst. intros []. Qed.
Lemma reachD s : reach s -> invD s.
Proof. induction 1 as [|s s' R IH St]; [apply initD|]. eapply stepD; eauto using reachA, reachC. Qed.
End Inv.
