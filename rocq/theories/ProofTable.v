(** Facts about LMDB tables. *)
From Verif Require Import Base BaseProof ModelTile SpecTile ModelRender ModelTable ProofRender.
Open Scope N_scope.

Lemma table_put_keys t k v e : In e (table_put t k v) -> fst e = k \/ In e t.
Proof.
  induction t as [|[k' v'] t IH]; cbn [table_put]. { intros [<-|[]]. auto. }
  destruct (k =? k'). { intros [<-|H]; cbn [In]; auto. }
  destruct (k <? k'). { intros [<-|H]; auto. }
  intros [<-|H]; cbn [In]; auto. destruct (IH H); auto.
Qed.
Lemma table_put_sorted t k v : table_sorted t -> table_sorted (table_put t k v).
Proof.
  induction t as [|[k' v'] t IH]; cbn [table_put table_sorted]; intros H. { split; constructor. }
  destruct H as [H1 H2]. destruct (N.eqb_spec k k') as [->|Hn]. { split; auto. }
  destruct (N.ltb_spec k k').
  - cbn [table_sorted]. split; [|auto]. constructor; [cbn [fst]; lia|]. eapply Forall_impl; [|exact H1]. cbn beta. intros; lia.
  - cbn [table_sorted]. split; [|auto]. apply Forall_forall. intros e He. apply table_put_keys in He as [He|He]; [lia|].
    exact (proj1 (Forall_forall _ _) H1 e He).
Qed.
Lemma table_get_put t k v k' : table_sorted t -> table_get (table_put t k v) k' = if k =? k' then Some v else table_get t k'.
Proof.
  induction t as [|[k1 v1] t IH]; cbn [table_put table_get table_sorted]; intros H. { reflexivity. }
  destruct H as [H1 H2]. destruct (N.eqb_spec k k1) as [->|Hn].
  - cbn [table_get]. destruct (k1 =? k'); reflexivity.
  - destruct (N.ltb_spec k k1).
    + cbn [table_get]. reflexivity.
    + cbn [table_get]. destruct (N.eqb_spec k1 k') as [->|Hn'].
      * destruct (N.eqb_spec k k'); [lia|reflexivity].
      * apply IH. exact H2.
Qed.
Lemma table_get_In t k v : table_get t k = Some v -> In (k, v) t.
Proof.
  induction t as [|[k1 v1] t IH]; cbn [table_get]; [discriminate|]. destruct (N.eqb_spec k1 k) as [->|Hn]; intros H.
  - injection H as ->. left. reflexivity. - right. auto.
Qed.
Lemma table_ext a : forall b, table_sorted a -> table_sorted b -> (forall k, table_get a k = table_get b k) -> a = b.
Proof.
  assert (Hgt : forall (t : table) k, Forall (fun e => k < fst e) t -> table_get t k = None).
  { intros t k H. apply table_get_none. intros v Hv. pose proof (proj1 (Forall_forall _ _) H _ Hv). cbn [fst] in *. lia. }
  induction a as [|[k v] a IH]; intros [|[k' v'] b] Ha Hb H; cbn [table_sorted] in *.
  - reflexivity.
  - specialize (H k'). cbn [table_get] in H. rewrite N.eqb_refl in H. discriminate.
  - specialize (H k). cbn [table_get] in H. rewrite N.eqb_refl in H. discriminate.
  - destruct Ha as [A1 A2], Hb as [B1 B2].
    assert (k = k') as <-.
    { destruct (N.lt_trichotomy k k') as [L|[L|L]]; [|exact L|]; exfalso.
      - specialize (H k). cbn [table_get] in H. rewrite N.eqb_refl in H. destruct (N.eqb_spec k' k); [lia|].
        rewrite Hgt in H; [discriminate|]. eapply Forall_impl; [|exact B1]. cbn beta. intros; lia.
      - specialize (H k'). cbn [table_get] in H. rewrite N.eqb_refl in H. destruct (N.eqb_spec k k'); [lia|].
        rewrite Hgt in H; [discriminate|]. eapply Forall_impl; [|exact A1]. cbn beta. intros; lia. }
    assert (v = v') as <-.
    { specialize (H k). cbn [table_get] in H. rewrite N.eqb_refl in H. congruence. }
    f_equal. apply IH; auto. intros q. specialize (H q). cbn [table_get] in H. destruct (N.eqb_spec k q) as [Eq|Hn]; auto. subst q.
    rewrite !Hgt; auto.
Qed.
