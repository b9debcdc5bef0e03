(** Whole imports: the features made of the objects. *)
From Coq Require Import Permutation String Ascii Sorting.Sorted.
From Coq Require Import List.
From Verif Require Import Base BaseProof ModelTile SpecTile ModelPackFile ModelTable ModelCodec ModelGeom SpecGeom ModelFeature SpecFeature ProofFeature
  ModelMvt SpecMvt ModelRender SpecRender ProofRender ModelInserter SpecInserter ProofInserter ModelDict SpecDict ProofDict
  ModelOsm SpecOsm ProofOsm ModelServer ModelImport SpecImport.
Import ListNotations.
Open Scope N_scope.

(** an imported object with the name of its layer and its first zoom level *)
Notation kept := (osm_input * bytes * N)%type.
Definition made (L : libs) (k : kept) (f : feature) : Prop :=
  exists ms, f = Feature (to_u64 (o_id (fst (fst (fst (fst k)))))) (f_layer f) (snd k) 21 ms (snd (fst (fst (fst k)))) /\
    one_per_key (metadata L (fst (fst k))) ms.

Lemma one_per_key_incl ms r : one_per_key ms r -> incl r ms /\ NoDup r.
Proof.
  intros [H1 H2]. split.
  - intros [k v] H. now apply H2 in H.
  - clear H2. induction H1 as [|a r H1 IH H]; constructor; [|assumption].
    intros Hin. apply (proj1 (Forall_forall _ _) H) in Hin. clear -Hin. induction (fst a) as [|x l IH]; cbn [bytes_ltb] in Hin; [discriminate|].
    rewrite N.ltb_irrefl in Hin. now apply IH.
Qed.

Lemma handle_all_spec L : sorts meta_ltb (l_msort L) -> forall objs names fs m, Forall (object_ok L) objs -> handle_all L objs names = Ok (fs, m) ->
  exists ks, (forall i layer mn, In (i, layer, mn) ks <-> In i objs /\ imported L i layer mn) /\ (length ks <= length objs)%nat /\
    get_layer_idxs names (map (fun k => snd (fst k)) ks) = (map f_layer fs, m) /\ Forall2 (made L) ks fs /\
    (length (flat_map f_meta fs) <= length (flat_map (metadata L) objs))%nat.
Proof.
  intros Hs objs. induction objs as [|[[o g] cs] objs IH]; intros names fs m HO E.
  - cbn [handle_all] in E. apply Ok_inj in E. injection E as <- <-. exists []. split; [intros; cbn; tauto|]. split; [cbn; lia|]. split; [reflexivity|]. split; [constructor | cbn; lia].
  - inversion HO as [|? ? HO1 HO2]; subst. cbn [handle_all] in E. pose proof (handle_spec (l_msort L) (l_stod L) (l_dbl L) (l_oarea L) o g cs names Hs (proj1 HO1)) as HS.
    assert (Hskip : (forall layer mn, ~ imported L (o, g, cs) layer mn) ->
      handle_feature (l_msort L) (l_stod L) (l_dbl L) (l_oarea L) o g cs names = Ok (None, names) ->
      exists ks, (forall i layer mn, In (i, layer, mn) ks <-> In i ((o, g, cs) :: objs) /\ imported L i layer mn) /\ (length ks <= S (length objs))%nat /\
        get_layer_idxs names (map (fun k => snd (fst k)) ks) = (map f_layer fs, m) /\ Forall2 (made L) ks fs /\
        (length (flat_map f_meta fs) <= length (flat_map (metadata L) ((o, g, cs) :: objs)))%nat).
    { intros Hno EH. rewrite EH in E. cbn [bind] in E. apply bind_ok in E as ([fs' m'] & E1 & E2). apply Ok_inj in E2. injection E2 as <- <-.
      destruct (IH _ _ _ HO2 E1) as (ks & K1 & K2 & K3 & K4 & K5). exists ks. split; [|split; [lia|split; [assumption|split; [assumption|]]]].
      - intros i layer mn. rewrite K1. cbn [In]. split; [tauto|]. intros [[<-|Hi] Hp]; [now apply Hno in Hp | auto].
      - cbn [flat_map]. rewrite app_length. lia. }
    destruct (last_some (approval (l_oarea L g)) cs) as [mn|] eqn:EA.
    2: { apply Hskip; [|assumption]. intros layer mn [H _]. rewrite EA in H. discriminate H. }
    destruct (last_some layer_of cs) as [[|c n]|] eqn:EL; [now rewrite HS in E| |now rewrite HS in E].
    destruct HS as [HS1 HS2]. assert (g = GNull \/ g <> GNull) as [Hg|Hg] by (destruct g; [now left | right; discriminate ..]).
    { apply Hskip; [|auto]. intros layer mn' (_ & _ & H). contradiction. }
    destruct (HS2 Hg) as (ms & EH & Hms). rewrite EH in E. cbn [bind] in E. apply bind_ok in E as ([fs' m'] & E1 & E2). apply Ok_inj in E2. injection E2 as <- <-.
    destruct (IH _ _ _ HO2 E1) as (ks & K1 & K2 & K3 & K4 & K5). exists ((o, g, cs, c :: n, mn) :: ks). split; [|split; [cbn [length]; lia|split; [|split]]].
    + intros i layer mn'. cbn [In]. rewrite K1. split.
      * intros [H|[H1 H2]]; [|auto]. injection H as <- <- <-. split; [now left|]. repeat split; assumption.
      * intros [[<-|H1] H2]; [|auto]. left. destruct H2 as (H2 & H3 & _). rewrite EA in H2. rewrite EL in H3. injection H2 as <-. injection H3 as <-. reflexivity.
    + cbn [map fst snd get_layer_idxs]. destruct (get_layer_idx names (c :: n)) as [idx names'] eqn:EG. cbn [fst snd] in *. rewrite K3. reflexivity.
    + constructor; [|assumption]. exists ms. cbn [fst snd f_layer]. split; [reflexivity | assumption].
    + cbn [flat_map f_meta]. rewrite !app_length. cut (length ms <= length (metadata L (o, g, cs)))%nat; [lia|].
      destruct (one_per_key_incl _ _ Hms) as [HI HN]. now apply NoDup_incl_length.
Qed.
