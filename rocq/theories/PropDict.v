(** C28-C30: layer names and the shared metadata dictionary. *)
From Coq Require Import Permutation Sorting.Sorted.
From Verif Require Import Base ModelTile ModelCodec ModelGeom SpecGeom ModelFeature SpecFeature ModelDict SpecDict ProofFeature ProofDict.
Open Scope N_scope.

(** C28: writing a list of names and reading it gives the same list *)
Theorem c28_roundtrip : forall names, Forall short names -> read_layer_names (write_layer_names names) = Ok names.
Proof. exact names_persist. Qed.
Print Assumptions c28_roundtrip.

(** C28: for any sequence of lookups (each atomic, so for any interleaving of
    importer threads) the stored list holds "coastline" at position 0 and every
    used name exactly once, and every lookup returned the position of its name *)
Theorem c28_indices : forall used is m, get_layer_idxs nm_init used = (is, m) -> Forall short used ->
  exists names buf, store_layer_names m = Ok buf /\ get_layer_names (Some buf) = Ok names /\
    NoDup names /\ nth_error names 0 = Some coastline /\
    (forall n, In n names <-> n = coastline \/ In n used) /\
    Forall2 (fun n i => nth_error names (N.to_nat i) = Some n) used is.
Proof. exact layer_names_spec. Qed.
Print Assumptions c28_indices.

(** C28: names are appended in the order of first use and never move *)
Theorem c28_first_use_order : forall used more is1 m1 is2 m2, get_layer_idxs nm_init used = (is1, m1) ->
  get_layer_idxs nm_init (used ++ more) = (is2, m2) ->
  exists v tl tl2, store_layer_names m1 = Ok (write_layer_names v) /\
    store_layer_names m2 = Ok (write_layer_names (v ++ tl)) /\ is2 = is1 ++ tl2.
Proof. exact layer_names_grow. Qed.
Print Assumptions c28_first_use_order.

Example c28_ex : exists m, get_layer_idxs nm_init [[114]; coastline; [97]; [114]] = ([1; 0; 2; 1], m) /\
  exists buf, store_layer_names m = Ok buf /\ read_layer_names buf = Ok [coastline; [114]; [97]].
Proof. eexists. split; [vm_compute; reflexivity|].
  exists (write_layer_names [coastline; [114]; [97]]). split; vm_compute; reflexivity. Qed.

(** C29: exactly the dictionary's entries have a code, and a code decodes to its entry *)
Theorem c29_encodes_exactly_entries : forall psrt d m, sorts pair_ltb psrt ->
  In m d <-> exists i, dict_encode (coder_make psrt d) m = Some i.
Proof. exact encode_total. Qed.
Print Assumptions c29_encodes_exactly_entries.

Theorem c29_decodes_back : forall psrt d m i, sorts pair_ltb psrt ->
  dict_encode (coder_make psrt d) m = Some i -> dict_decode d i = Ok m.
Proof. intros psrt d m i Hp H. pose proof (encode_spec psrt d m Hp) as E. rewrite H in E. tauto. Qed.
Print Assumptions c29_decodes_back.

(** C29: storing and loading preserves the dictionary and so its codes *)
Theorem c29_persists : forall d, Forall meta_short d -> load_dict (Some (write_dict d)) = Ok d.
Proof. exact dict_persists. Qed.
Print Assumptions c29_persists.

(** C29, whole path: after any concurrent counting, a feature packed with the
    stored dictionary is read back with the loaded dictionary unchanged *)
Theorem c29_feature_roundtrip : forall srt dsrt psrt take mk rd fast seen s b d f bs,
  sorts meta_ltb srt -> sorts count_gtb dsrt -> takes take -> sorts pair_ltb psrt ->
  smb_run srt seen s -> N.of_nat (length seen) < 2 ^ 64 -> Forall meta_short seen -> s_bufs s = [] ->
  store_dict srt dsrt take s = Ok b -> load_dict (Some b) = Ok d ->
  feature_ok f -> proper (f_geom f) ->
  serialize_feature (dict_encode (coder_make psrt d)) mk fast f = Ok bs -> blen bs < 2 ^ 32 ->
  exists f', deserialize_feature (dict_decode d) rd no_hints bs = Ok (Some f') /\ same_but f f' (f_geom f) /\ (fast = true -> f' = f).
Proof. exact dict_feature_roundtrip. Qed.
Print Assumptions c29_feature_roundtrip.

(** C30: in every reachable state no merge can fail; once everything is merged
    the counts are exactly how often each pair was passed to update *)
Theorem c30_counts : forall srt, sorts meta_ltb srt -> forall seen s, smb_run srt seen s ->
  N.of_nat (length seen) < 2 ^ 64 ->
  (forall buf, In buf (s_bufs s) -> exists c', flush_buf srt (s_counts s) buf = Ok c') /\
  (s_queue s = [] -> s_bufs s = [] -> NoDup (map fst (s_counts s)) /\
     forall m n, In (m, n) (s_counts s) <-> n = times m seen /\ 0 < n).
Proof. exact counts_exact. Qed.
Print Assumptions c30_counts.

(** C30: store succeeds and writes exactly the pairs seen at least twice, the most
    frequent first *)
Theorem c30_store : forall srt dsrt take, sorts meta_ltb srt -> sorts count_gtb dsrt -> takes take ->
  forall seen s, smb_run srt seen s -> N.of_nat (length seen) < 2 ^ 64 -> Forall meta_short seen -> s_bufs s = [] ->
  exists b d, store_dict srt dsrt take s = Ok b /\ load_dict (Some b) = Ok d /\ NoDup d /\
    (forall m, In m d <-> 2 <= times m seen) /\
    StronglySorted (fun a b => times b seen <= times a seen) d.
Proof. exact store_load_spec. Qed.
Print Assumptions c30_store.

Definition ex_m1 : meta := ([1], [2]).
Definition ex_m2 : meta := ([1], [3]).
Definition ex_m3 : meta := ([], [9; 9]).
Definition ex_take (q : list meta) : list meta * list meta := (firstn 2 q, skipn 2 q).
Lemma ex_takes : takes ex_take.
Proof.
  intros q. unfold ex_take. cbn [fst snd]. rewrite firstn_skipn. split; [reflexivity|]. now destruct q.
Qed.
Definition ex_srt := isort meta_ltb.
Example c30_ex_sorts : sorts meta_ltb ex_srt /\ sorts count_gtb (isort count_gtb) /\ sorts pair_ltb (isort pair_ltb).
Proof. split; [exact isort_meta|]. split; [exact isort_count|exact isort_pair]. Qed.
(** two threads: one dequeues part of the queue, more arrives, then it merges *)
Example c30_ex : exists s, smb_run ex_srt [ex_m2; ex_m1; ex_m3; ex_m2; ex_m1; ex_m2] s /\ s_bufs s = [] /\
  exists b, store_dict ex_srt (isort count_gtb) ex_take s = Ok b /\ load_dict (Some b) = Ok [ex_m2; ex_m1].
Proof.
  assert (R1 : smb_run ex_srt ([] ++ [ex_m2; ex_m1; ex_m3; ex_m2]) (Smb [ex_m2; ex_m1; ex_m3; ex_m2] [] [])).
  { eapply run_step; [apply run_init|apply (step_update ex_srt _ [])]. }
  assert (R2 : smb_run ex_srt (([] ++ [ex_m2; ex_m1; ex_m3; ex_m2]) ++ []) (Smb [ex_m1; ex_m2] [[ex_m2; ex_m3]] [])).
  { eapply run_step; [exact R1|apply step_dequeue]. cbn [app].
    apply perm_skip. apply perm_swap. }
  assert (R3 : smb_run ex_srt ((([] ++ [ex_m2; ex_m1; ex_m3; ex_m2]) ++ []) ++ [ex_m1; ex_m2]) (Smb [ex_m1; ex_m2; ex_m1; ex_m2] [[ex_m2; ex_m3]] [])).
  { eapply run_step; [exact R2|apply step_update]. }
  assert (R4 : smb_run ex_srt (((([] ++ [ex_m2; ex_m1; ex_m3; ex_m2]) ++ []) ++ [ex_m1; ex_m2]) ++ []) (Smb [ex_m1; ex_m2; ex_m1; ex_m2] [] [(ex_m3, 1); (ex_m2, 1)])).
  { eapply run_step; [exact R3|]. apply (step_merge ex_srt [] [ex_m2; ex_m3] []). vm_compute. reflexivity. }
  eexists. split; [exact R4|]. split; [reflexivity|]. exists (write_dict [ex_m2; ex_m1]). split; vm_compute; reflexivity.
Qed.
Example c29_ex : dict_encode (coder_make (isort pair_ltb) [ex_m2; ex_m1; ex_m3]) ex_m1 = Some 1 /\
  dict_encode (coder_make (isort pair_ltb) [ex_m2; ex_m1]) ex_m3 = None /\ dict_decode [ex_m2; ex_m1; ex_m3] 1 = Ok ex_m1.
Proof. split; [|split]; vm_compute; reflexivity. Qed.
