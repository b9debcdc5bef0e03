(** Proofs about the draining of work queues. *)
From Coq Require Import Permutation.
From Verif Require Import Base BaseProof ModelDrain SpecDrain ProofPackerProps ProofPerm.
Open Scope N_scope.

Lemma Permutation_concat {A} (a b : list (list A)) : Permutation a b -> Permutation (concat a) (concat b).
Proof.
  induction 1 as [|x l l' _ IH|x y l|l l' l'' _ IH1 _ IH2]; cbn [concat]; auto.
  - now apply Permutation_app_head.
  - rewrite !app_assoc. apply Permutation_app_tail, Permutation_app_comm.
  - now transitivity (concat l').
Qed.

Section Coast.
Context {G D Z : Type}.
Variable proc : G -> list (out G D Z).
Notation out := (out G D Z). Notation wpc := (wpc G D Z). Notation mpc := (mpc D). Notation cst := (cst G D Z).

Lemma outcome_perm p p' l l' : Permutation p p' -> Permutation l l' -> outcome proc p l -> outcome proc p' l'.
Proof.
  intros Hp Hl (ls & H1 & H2). symmetry in Hp. destruct (Forall2_perm _ _ _ Hp _ H1) as (ls' & P & F).
  exists ls'. split; auto. rewrite <- Hl, H2. apply Permutation_concat. symmetry. exact P.
Qed.
Lemma outcome_nil l : outcome proc [] l <-> l = [].
Proof.
  split. - intros (ls & H & P). inversion H; subst. apply Permutation_nil. symmetry. exact P.
  - intros ->. exists []. split; constructor.
Qed.
Lemma outcome_cons o p a l : gives proc o a -> outcome proc p l -> outcome proc (o :: p) (a ++ l).
Proof. intros H (ls & H1 & H2). exists (a :: ls). split; [constructor; auto|]. cbn [concat]. rewrite H2. reflexivity. Qed.
Lemma outcome_task g p l : outcome proc (proc g ++ p) l -> outcome proc (OTask g :: p) l.
Proof.
  intros (ls & H1 & H2). apply Forall2_app_inv_l in H1 as (l1 & l2 & F1 & F2 & ->).
  exists (concat l1 :: l2). split. { constructor; auto. now apply gives_task. }
  cbn [concat]. rewrite H2, concat_app. reflexivity.
Qed.

Definition wpend (w : wpc) : list out := match w with WRun r => r | WPush o r => o :: r | _ => [] end.
Definition mpend (m : mpc) : list out := match m with MHold d => [OResult d] | _ => [] end.
Definition pend (s : cst) : list out :=
  map OTask (c_geo s) ++ map OResult (c_db s) ++ mpend (c_main s) ++ flat_map wpend (c_workers s).
Definition emit (s : cst) : list (D + Z) := map inl (c_inserted s) ++ map inr (c_sea s).
Definition wgeo (w : wpc) : N := match w with WRun _ => 1 | WPush (OTask _) _ => 2 | WPush _ _ => 1 | _ => 0 end.
Definition wdb (w : wpc) : N := match w with WPush (OResult _) _ => 1 | _ => 0 end.
Definition sumN {A} (f : A -> N) (l : list A) : N := fold_right (fun x n => f x + n) 0 l.
Definition wok (w : wpc) : Prop := match w with WPush (OSea _) _ => False | _ => True end.
Definition mdb (m : mpc) : N := match m with MHold _ | MFin => 1 | _ => 0 end.

Lemma sumN_app {A} (f : A -> N) a b : sumN f (a ++ b) = sumN f a + sumN f b.
Proof. induction a as [|x a IH]; cbn [app sumN fold_right]; [reflexivity|]. fold (sumN f (a ++ b)). fold (sumN f a). lia. Qed.
Lemma sumN_mid {A} (f : A -> N) a x b : sumN f (a ++ x :: b) = f x + (sumN f a + sumN f b).
Proof. rewrite sumN_app. cbn [sumN fold_right]. fold (sumN f b). lia. Qed.

Record cinv (tasks : list G) (s : cst) : Prop := {
  ci_geo : c_gpend s = N.of_nat (length (c_geo s)) + sumN wgeo (c_workers s);
  ci_db : c_dpend s = N.of_nat (length (c_db s)) + sumN wdb (c_workers s) + mdb (c_main s);
  ci_ok : Forall wok (c_workers s);
  ci_main : match c_main s with MDb => c_gpend s = 0 | MExit => c_gpend s = 0 /\ c_dpend s = 0 | _ => True end;
  ci_out : forall l, outcome proc (pend s) l -> outcome proc (map OTask tasks) (emit s ++ l) }.

Lemma Forall_mid {A} (P : A -> Prop) a x b : Forall P (a ++ x :: b) <-> P x /\ Forall P (a ++ b).
Proof. rewrite !Forall_app, Forall_cons_iff. tauto. Qed.

Lemma flat_mid {A B} (f : A -> list B) a x b : Permutation (flat_map f (a ++ x :: b)) (f x ++ flat_map f (a ++ b)).
Proof.
  rewrite !flat_map_app. cbn [flat_map].
  rewrite app_assoc, (Permutation_app_comm (flat_map f a) (f x)), <- app_assoc. reflexivity.
Qed.

(** a step that only moves pending things around *)
Lemma moved tasks (s s' : cst) : Permutation (pend s) (pend s') -> emit s' = emit s ->
  (forall l, outcome proc (pend s) l -> outcome proc (map OTask tasks) (emit s ++ l)) ->
  forall l, outcome proc (pend s') l -> outcome proc (map OTask tasks) (emit s' ++ l).
Proof. intros P E H l O. rewrite E. apply H. eapply outcome_perm; [symmetry; exact P|reflexivity|exact O]. Qed.

Lemma worker_pend gp geo dp db w1 w w2 m ins sea : Permutation (pend (Cst gp geo dp db (w1 ++ w :: w2) m ins sea))
  (wpend w ++ map OTask geo ++ map OResult db ++ mpend m ++ flat_map wpend (w1 ++ w2)).
Proof.
  unfold pend. cbn [c_geo c_db c_main c_workers]. perm.
Qed.

Lemma cstep_inv tasks s s' : cinv tasks s -> cstep proc s s' -> cinv tasks s'.
Proof.
  intros [Ig Id Io Im Iu] St.
  destruct St as [gp geo dp db w1 w2 m ins sea Hz|gp geo dp db w1 w2 m ins sea Hz|gp geo dp db w1 w2 m ins sea
    |gp g1 g g2 dp db w1 w2 m ins sea|gp geo dp db w1 w2 m ins sea g r|gp geo dp db w1 w2 m ins sea g r
    |gp geo dp db w1 w2 m ins sea d r|gp geo dp db w1 w2 m ins sea d r|gp geo dp db w1 w2 m ins sea z r
    |gp geo dp db w1 w2 m ins sea|gp geo dp db ws ins sea Hz|gp geo dp db ws ins sea Hz|gp geo dp db ws ins sea Hz
    |gp geo dp db ws ins sea Hz|gp geo dp db ws ins sea|gp geo dp d1 d d2 ws ins sea|gp geo dp db ws d ins sea
    |gp geo dp db ws ins sea];
  cbn [c_gpend c_geo c_dpend c_db c_workers c_main c_inserted c_sea] in *;
  try rewrite sumN_mid in Ig; try rewrite sumN_mid in Id; try rewrite Forall_mid in Io; cbn [wgeo wdb wok mdb] in *;
  split; cbn [c_gpend c_geo c_dpend c_db c_workers c_main c_inserted c_sea];
  try rewrite sumN_mid; try rewrite Forall_mid; cbn [wgeo wdb wok mdb]; rewrite ?app_length in *; cbn [length] in *; auto;
  try lia; try tauto;
  try (match goal with |- forall l, _ => idtac | _ => (destruct m; first [lia | tauto | intuition lia | auto]) end).
  all: try (refine (moved tasks _ _ _ _ Iu); [unfold pend; cbn [c_geo c_db c_main c_workers];
    rewrite ?map_app, ?flat_map_app; cbn [map flat_map wpend mpend app]; perm|reflexivity]).
  - (* take *)
    intros l O. apply Iu. clear Iu.
    eapply outcome_perm; [|reflexivity|apply outcome_task; eapply outcome_perm; [|reflexivity|exact O]].
    + unfold pend. cbn [c_geo c_db c_main c_workers]. rewrite ?map_app, ?flat_map_app. cbn [map flat_map wpend mpend app]. 
      rewrite (cons_app (OTask g)). instantiate (1 := map OTask g1 ++ map OTask g2 ++ map OResult db ++ mpend m ++ flat_map wpend w1 ++ flat_map wpend w2). perm.
    + unfold pend. cbn [c_geo c_db c_main c_workers]. rewrite ?map_app, ?flat_map_app. cbn [map flat_map wpend mpend app]. perm.
  - (* sea *)
    intros l O. eapply outcome_perm; [reflexivity| |apply Iu; clear Iu].
    2: { eapply outcome_perm; [|reflexivity|apply (outcome_cons (OSea z)); [constructor|exact O]].
      unfold pend. cbn [c_geo c_db c_main c_workers]. rewrite ?map_app, ?flat_map_app. cbn [map flat_map wpend mpend app]. perm. }
    unfold emit. cbn [c_inserted c_sea]. perm.
  - (* insert *)
    intros l O. eapply outcome_perm; [reflexivity| |apply Iu; clear Iu].
    2: { eapply outcome_perm; [|reflexivity|apply (outcome_cons (OResult d)); [constructor|exact O]].
      unfold pend. cbn [c_geo c_db c_main c_workers]. rewrite ?map_app, ?flat_map_app. cbn [map flat_map wpend mpend app]. perm. }
    unfold emit. cbn [c_inserted c_sea]. perm.
Qed.

Lemma sumN_zero {A} (f : A -> N) l : (forall x, In x l -> f x = 0) -> sumN f l = 0.
Proof. induction l as [|x l IH]; intros H; [reflexivity|]. cbn [sumN fold_right]. fold (sumN f l).
  rewrite IH, (H x). reflexivity. left; reflexivity. intros y Hy. apply H. right. exact Hy. Qed.
Lemma sumN_In {A} (f : A -> N) l x : In x l -> f x <= sumN f l.
Proof. induction l as [|y l IH]; intros []; cbn [sumN fold_right]; fold (sumN f l). - subst. lia. - specialize (IH H). lia. Qed.

Lemma creach_inv tasks n s : creach proc tasks n s -> cinv tasks s.
Proof.
  induction 1 as [|s s' H IH St].
  - assert (E : forall f : wpc -> N, f WTop = 0 -> sumN f (repeat WTop n) = 0).
    { intros f Hf. apply sumN_zero. intros x Hx. apply repeat_spec in Hx. subst. exact Hf. }
    split; cbn [cst_init c_gpend c_geo c_dpend c_db c_workers c_main length]; auto.
    + rewrite E by reflexivity. lia.
    + rewrite E by reflexivity. reflexivity.
    + apply Forall_forall. intros x Hx. apply repeat_spec in Hx. subst. exact I.
    + intros l O. unfold emit, pend in *. cbn [cst_init c_gpend c_geo c_dpend c_db c_workers c_main c_inserted c_sea map app mpend] in *.
      assert (E2 : flat_map wpend (repeat WTop n) = []) by (clear; induction n; auto).
      rewrite E2, app_nil_r in O. exact O.
  - eapply cstep_inv; eauto.
Qed.

(** the loop of the storing thread was left: nothing is on its way any more *)
Lemma coast_drained tasks n s : creach proc tasks n s -> c_main s = MExit ->
  c_geo s = [] /\ c_db s = [] /\ Forall (fun w => w = WTop \/ w = WDeq \/ w = WExit) (c_workers s) /\
  outcome proc (map OTask tasks) (map inl (c_inserted s) ++ map inr (c_sea s)).
Proof.
  intros R E. destruct (creach_inv _ _ _ R) as [Ig Id Io Im Iu]. rewrite E in Im. destruct Im as [G0 D0].
  rewrite E in Id. cbn [mdb] in Id.
  assert (Eg : c_geo s = []) by (destruct (c_geo s); auto; cbn [length] in Ig; lia).
  assert (Ed : c_db s = []) by (destruct (c_db s); auto; cbn [length] in Id; lia).
  assert (W : Forall (fun w => w = WTop \/ w = WDeq \/ w = WExit) (c_workers s)).
  { apply Forall_forall. intros w Hw. assert (wgeo w = 0) by (pose proof (sumN_In wgeo _ _ Hw); lia).
    destruct w as [| |r|[] r|]; cbn [wgeo] in *; auto; discriminate. }
  repeat split; auto. specialize (Iu []). rewrite app_nil_r in Iu. apply Iu.
  replace (pend s) with (@nil out); [apply outcome_nil; reflexivity|].
  unfold pend. rewrite Eg, Ed, E. cbn [map app mpend]. symmetry.
  clear -W. induction W as [|w ws Hw W IH]; auto. cbn [flat_map]. rewrite IH. destruct Hw as [Hw|[Hw|Hw]]; rewrite Hw; reflexivity.
Qed.

(** and the worker threads can only stop *)
Lemma coast_stays tasks n s s' : creach proc tasks n s -> c_main s = MExit -> cstep proc s s' ->
  c_main s' = MExit /\ c_inserted s' = c_inserted s /\ c_sea s' = c_sea s.
Proof.
  intros R E St. destruct (coast_drained _ _ _ R E) as (_ & _ & W & _).
  destruct St; cbn [c_main c_inserted c_sea c_workers] in *; try discriminate; auto.
  apply Forall_mid in W as [[W|[W|W]] _]; discriminate.
Qed.
End Coast.

Section Rep.
Context {G D : Type}.
Variable pack : G -> D.
Notation kpc := (kpc G D). Notation rpc := (rpc G D). Notation rst := (rst G D).

Definition kres (k : kpc) : list D := match k with KRun g => [pack g] | KPush d => [d] | _ => [] end.
Definition mtasks (m : rpc) : list G := match m with RWork ts | RFin ts | RHold _ ts => ts | RPush g ts => g :: ts | _ => [] end.
Definition mres (m : rpc) : list D := match m with RHold d _ | RDrain d => [d] | _ => [] end.
Definition kwork (k : kpc) : N := match k with KTop => 0 | _ => 1 end.
Definition kresn (k : kpc) : N := match k with KPush _ => 1 | _ => 0 end.
Definition mwork (m : rpc) : N := match m with RPush _ _ => 1 | _ => 0 end.
Definition mresn (m : rpc) : N := match m with RHold _ _ | RFin _ | RDrain _ | RDrainFin => 1 | _ => 0 end.

Record rinv (tasks : list G) (s : rst) : Prop := {
  ri_work : r_wpend s = N.of_nat (length (r_work s)) + sumN kwork (r_threads s) + mwork (r_main s);
  ri_res : r_rpend s = N.of_nat (length (r_res s)) + sumN kresn (r_threads s) + mresn (r_main s);
  ri_exit : r_main s = RExit -> r_wpend s = 0;
  ri_all : Permutation (map pack tasks) (map pack (mtasks (r_main s)) ++ map pack (r_work s) ++ flat_map kres (r_threads s) ++
             r_res s ++ mres (r_main s) ++ r_inserted s) }.

Lemma rstep_inv tasks s s' : rinv tasks s -> rstep pack s s' -> rinv tasks s'.
Proof.
  intros [Iw Ir Ie Ia] St.
  destruct St; cbn [r_wpend r_work r_rpend r_res r_threads r_main r_inserted] in *;
  try rewrite sumN_mid in Iw; try rewrite sumN_mid in Ir; cbn [kwork kresn mwork mresn] in *;
  split; cbn [r_wpend r_work r_rpend r_res r_threads r_main r_inserted];
  try rewrite sumN_mid; cbn [kwork kresn mwork mresn]; rewrite ?app_length in *; cbn [length] in *; auto; try lia;
  try discriminate; try (intros ->; specialize (Ie eq_refl); lia).
  all: rewrite Ia; rewrite ?map_app, ?flat_map_app; cbn [map flat_map kres mres mtasks app]; perm.
Qed.

Lemma rreach_inv tasks n s : rreach pack tasks n s -> rinv tasks s.
Proof.
  induction 1 as [|s s' H IH St].
  - assert (E : forall f : kpc -> N, f KTop = 0 -> sumN f (repeat KTop n) = 0).
    { intros f Hf. apply sumN_zero. intros x Hx. apply repeat_spec in Hx. subst. exact Hf. }
    split; cbn [rst_init r_wpend r_work r_rpend r_res r_threads r_main r_inserted]; auto.
    + rewrite E by reflexivity. reflexivity.
    + rewrite E by reflexivity. reflexivity.
    + assert (E2 : flat_map kres (repeat KTop n) = []) by (clear; induction n; auto).
      rewrite E2. cbn [mtasks mres map app]. rewrite !app_nil_r. reflexivity.
  - eapply rstep_inv; eauto.
Qed.

(** when the drain ends, what was not processed is still in the result queue, where
    the final check finds it *)
Lemma repack_drained tasks n s : rreach pack tasks n s -> r_main s = RExit ->
  r_work s = [] /\ Forall (fun k => k = KTop) (r_threads s) /\ Permutation (map pack tasks) (r_res s ++ r_inserted s) /\
  (final_check s = Ok tt <-> Permutation (map pack tasks) (r_inserted s)) /\ (final_check s = Ok tt \/ final_check s = Throw).
Proof.
  intros R E. destruct (rreach_inv _ _ _ R) as [Iw Ir Ie Ia]. specialize (Ie E). rewrite E in *. cbn [mwork mresn mtasks mres map app] in *.
  assert (Ew : r_work s = []) by (destruct (r_work s); auto; cbn [length] in Iw; lia).
  assert (W : Forall (fun k => k = KTop) (r_threads s)).
  { apply Forall_forall. intros k Hk. assert (kwork k = 0) by (pose proof (sumN_In kwork _ _ Hk); lia).
    destruct k; cbn [kwork] in *; auto; discriminate. }
  assert (P : Permutation (map pack tasks) (r_res s ++ r_inserted s)).
  { rewrite Ia, Ew. cbn [map app]. replace (flat_map kres (r_threads s)) with (@nil D); [reflexivity|].
    clear -W. induction W as [|w ws -> W IH]; auto. }
  repeat split; auto.
  - intros F. unfold final_check in F. rewrite Ew in F. destruct (r_res s) eqn:Er; [exact P|discriminate].
  - intros P2. unfold final_check. rewrite Ew. destruct (r_res s) eqn:Er; [reflexivity|].
    exfalso. rewrite P in P2. apply Permutation_length in P2. rewrite app_length in P2. cbn [length] in P2. lia.
  - unfold final_check. rewrite Ew. destruct (r_res s); auto.
Qed.
End Rep.
