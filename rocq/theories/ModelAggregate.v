(** Joining line features: src/feature/aggregate_line_features.cc. *)
From Verif Require Import Base ModelTile ModelCodec ModelGeom ModelFeature ModelDict ModelQuadTree.
Open Scope Z_scope.

(** fixed_geometry.h:23 *)
Definition invalid_xy : pt := (max64, max64).

(** :22-31 struct line.  A tree of joined lines: a leaf is the line with this number (feature_ and
    geo_idx_ together: the lines of all features of the group are numbered), a node has left_ and
    right_; the flag is reversed_.  oneway_ is never set (:47), so all lines have the same value and the
    branches for it (:141-143, :155-157, :175-177, :189-191) are left out. *)
Inductive ltree := LLeaf (k : nat) (rv : bool) | LNode (l r : ltree) (rv : bool).
Record jline := JL { j_from : pt; j_to : pt; j_tree : ltree }.
(** std::vector<line_handle>: None is a null pointer *)
Notation handles := (list (option jline)).

(** :42-46: front() and back() of an empty line are undefined *)
Definition make_handle (k : nat) (l : line) : res (option jline) :=
  match l with
  | [] => UB
  | p :: _ => Ok (Some (JL p (last l p) (LLeaf k false)))
  end.
(** :33-51 the loop over one feature ([k]: number of its first line).  mpark::get throws for another
    kind of geometry. *)
Fixpoint make_handles (k : nat) (ls : list line) : res handles :=
  match ls with
  | [] => Ok []
  | l :: ls' => do h <- make_handle k l; do hs <- make_handles (S k) ls'; Ok (h :: hs)
  end.
(** :37-39 *)
Definition feature_lines (f : feature) : res (list line) :=
  match f_geom f with
  | GLine ls => do _ <- verify (N.of_nat (length ls) <? 2 ^ 32 - 1)%N; Ok ls
  | _ => Throw
  end.

(** ** join_lines, :53-201 *)
(** the order of :61-64 (addresses of handles grow with their number) and of :77-79 *)
Definition pt_ltb (a b : pt) : bool := (fst a <? fst b) || ((fst a =? fst b) && (snd a <? snd b)).
Notation lentry := (pt * nat)%type.
Definition lentry_ltb (a b : lentry) : bool :=
  pt_ltb (fst a) (fst b) || (pt_eqb (fst a) (fst b) && (snd a <? snd b)%nat).
Definition lentry_eqb (a b : lentry) : bool := pt_eqb (fst a) (fst b) && (snd a =? snd b)%nat.

(** :54-58 *)
Fixpoint line_ends (k : nat) (hs : handles) : list lentry :=
  match hs with
  | [] => []
  | Some j :: hs' => (j_from j, k) :: (j_to j, k) :: line_ends (S k) hs'
  | None :: hs' => line_ends (S k) hs'
  end.
(** std::unique (library), part of utl::erase_duplicates *)
Fixpoint lunique (l : list lentry) : list lentry :=
  match l with
  | a :: ((b :: _) as l') => if lentry_eqb a b then lunique l' else a :: lunique l'
  | _ => l
  end.
(** :59-68; [srt] is std::sort *)
Definition end_index (srt : list lentry -> list lentry) (hs : handles) : list lentry :=
  lunique (srt (line_ends 0 hs)).

(** :76-79 std::lower_bound on a sorted vector (library): the first element that is not less; and the
    elements from there on while it->first == pos, :83, :97 *)
Fixpoint from_bound (pos : pt) (idx : list lentry) : list lentry :=
  match idx with
  | [] => []
  | e :: idx' => if pt_ltb (fst e) pos then from_bound pos idx' else idx
  end.
Fixpoint while_at (pos : pt) (es : list lentry) : list lentry :=
  match es with
  | [] => []
  | e :: es' => if pt_eqb (fst e) pos then e :: while_at pos es' else []
  end.
Definition entries_at (pos : pt) (idx : list lentry) : list lentry := while_at pos (from_bound pos idx).

(** handles[k] *)
Definition handle_at (hs : handles) (k : nat) : option jline := nth k hs None.
Fixpoint set_handle (hs : handles) (k : nat) (v : option jline) : handles :=
  match hs, k with
  | [], _ => []
  | _ :: hs', O => v :: hs'
  | h :: hs', S k' => h :: set_handle hs' k' v
  end.

(** :81-90 the last entry that is neither this line nor gone *)
Fixpoint other_of (self : nat) (hs : handles) (es : list lentry) (acc : option nat) : option nat :=
  match es with
  | [] => acc
  | (_, k) :: es' =>
      if (k =? self)%nat || match handle_at hs k with None => true | Some _ => false end
      then other_of self hs es' acc
      else other_of self hs es' (Some k)
  end.

(** :96-109.  [pos] is a reference to from_ ([at_from]) or to_ of this very line (:137, :171): once the
    loop has overwritten it, pos is invalid_xy and the loop ends. *)
Fixpoint burn (self : nat) (at_from : bool) (pos : pt) (es : list lentry) (hs : handles) : handles :=
  match es with
  | [] => hs
  | (_, k) :: es' =>
      match handle_at hs k with
      | None => burn self at_from pos es' hs
      | Some j =>
          if (k =? self)%nat then
            set_handle hs k (Some (
              if at_from then JL invalid_xy (j_to j) (j_tree j)
              else JL (if pt_eqb (j_from j) pos then invalid_xy else j_from j) invalid_xy (j_tree j)))
          else
            burn self at_from pos es' (set_handle hs k (Some (
              JL (if pt_eqb (j_from j) pos then invalid_xy else j_from j)
                 (if pt_eqb (j_to j) pos then invalid_xy else j_to j) (j_tree j))))
      end
  end.

(** :70-112 find_incident_line *)
Definition find_incident (idx : list lentry) (hs : handles) (self : nat) (at_from : bool) (pos : pt) : option nat * handles :=
  if pt_eqb pos invalid_xy then (None, hs) else
  let es := entries_at pos idx in
  if (length es =? 2)%nat then (other_of self hs es None, hs)
  else (None, burn self at_from pos es hs).

(** :114-129 mark_reversed: every line of the tree *)
Fixpoint mark_reversed (t : ltree) : ltree :=
  match t with
  | LLeaf k rv => LLeaf k (negb rv)
  | LNode l r rv => LNode (mark_reversed l) (mark_reversed r) (negb rv)
  end.

(** :136-165 *)
Fixpoint join_from (fuel : nat) (idx : list lentry) (i : nat) (hs : handles) : res handles :=
  match fuel with
  | O => Fuel
  | S f =>
      match handle_at hs i with
      | None => UB
      | Some me =>
          match find_incident idx hs i true (j_from me) with
          | (None, hs1) => Ok hs1
          | (Some k, hs1) =>
              match handle_at hs1 k with
              | None => Ok hs1
              | Some ot =>
                  if pt_eqb (j_from ot) (j_to ot) then Ok hs1 else
                  let joined :=
                    if pt_eqb (j_from me) (j_to ot)
                    then JL (j_from ot) (j_to me) (LNode (j_tree ot) (j_tree me) false)
                    else JL (j_to ot) (j_to me) (LNode (mark_reversed (j_tree ot)) (j_tree me) false) in
                  join_from f idx i (set_handle (set_handle hs1 k None) i (Some joined))
              end
          end
      end
  end.
(** :171-199 *)
Fixpoint join_to (fuel : nat) (idx : list lentry) (i : nat) (hs : handles) : res handles :=
  match fuel with
  | O => Fuel
  | S f =>
      match handle_at hs i with
      | None => UB
      | Some me =>
          match find_incident idx hs i false (j_to me) with
          | (None, hs1) => Ok hs1
          | (Some k, hs1) =>
              match handle_at hs1 k with
              | None => Ok hs1
              | Some ot =>
                  if pt_eqb (j_from ot) (j_to ot) then Ok hs1 else
                  let joined :=
                    if pt_eqb (j_to me) (j_from ot)
                    then JL (j_from me) (j_to ot) (LNode (j_tree me) (j_tree ot) false)
                    else JL (j_from me) (j_from ot) (LNode (j_tree me) (mark_reversed (j_tree ot)) false) in
                  join_to f idx i (set_handle (set_handle hs1 k None) i (Some joined))
              end
          end
      end
  end.
(** :131-200 one handle *)
Definition join_one (idx : list lentry) (i : nat) (hs : handles) : res handles :=
  match handle_at hs i with
  | None => Ok hs
  | Some me =>
      if pt_eqb (j_from me) (j_to me) then Ok hs else
      do hs <- join_from (S (length hs)) idx i hs;
      match handle_at hs i with
      | None => UB
      | Some me => if pt_eqb (j_from me) (j_to me) then Ok hs else join_to (S (length hs)) idx i hs
      end
  end.
(** :131-200 the loop *)
Fixpoint join_each (idx : list lentry) (is : list nat) (hs : handles) : res handles :=
  match is with
  | [] => Ok hs
  | i :: is' => do hs <- join_one idx i hs; join_each idx is' hs
  end.
(** :53-201 *)
Definition join_lines (srt : list lentry -> list lentry) (hs : handles) : res handles :=
  join_each (end_index srt hs) (seq 0 (length hs)) hs.

(** ** aggregate_geometry, :203-250 *)
(** :216-244: the stack visits the leaves in this order; [acc] is joined_geo.  All lines are non-empty
    (:43), so skipping a point is defined. *)
Fixpoint emit_tree (lns : list line) (t : ltree) (acc : line) : line :=
  match t with
  | LLeaf k rv =>
      let l := nth k lns [] in
      acc ++ match acc with
             | [] => if rv then rev l else l
             | _ => if rv then rev (removelast l) else tl l
             end
  | LNode l r rv => if rv then emit_tree lns l (emit_tree lns r acc) else emit_tree lns r (emit_tree lns l acc)
  end.
(** :206-248, one handle: an unjoined line as it is (:209), else the joined points *)
Definition joined_line (lns : list line) (t : ltree) : line :=
  match t with
  | LLeaf k _ => nth k lns []
  | _ => emit_tree lns t []
  end.
(** :206-248 the loop; null handles are skipped *)
Fixpoint joined_geometry (lns : list line) (hs : handles) : list line :=
  match hs with
  | [] => []
  | None :: hs' => joined_geometry lns hs'
  | Some j :: hs' => joined_line lns (j_tree j) :: joined_geometry lns hs'
  end.

(** all lines of a group: make_line_handles, join_lines, aggregate_geometry (:264-271) *)
Definition join_group (srt : list lentry -> list lentry) (lns : list line) : res (list line) :=
  do hs <- make_handles 0 lns;
  do hs <- join_lines srt hs;
  Ok (joined_geometry lns hs).

(** ** aggregate_line_features, :252-281 *)
(** std::vector<metadata> operator< (library), metadata.h:60-62 *)
Fixpoint metas_ltb (a b : list meta) : bool :=
  match a, b with
  | _, [] => false
  | [], _ :: _ => true
  | x :: a', y :: b' => if meta_ltb x y then true else if meta_ltb y x then false else metas_ltb a' b'
  end.
(** std::vector<metadata> operator== *)
Definition metas_eqb (a b : list meta) : bool :=
  if list_eq_dec (fun x y : meta => ltac:(decide equality; apply (list_eq_dec N.eq_dec))) a b then true else false.
(** :254-257 *)
Definition feature_ltb (a b : feature) : bool :=
  metas_ltb (f_meta a) (f_meta b) || (negb (metas_ltb (f_meta b) (f_meta a)) && (f_id a <? f_id b)%N).

(** utl::equal_ranges_linear (library): maximal runs of elements equal to the first of the run *)
Fixpoint take_run (m : list meta) (fs : list feature) : list feature * list feature :=
  match fs with
  | [] => ([], [])
  | f :: fs' => if metas_eqb m (f_meta f) then let '(a, b) := take_run m fs' in (f :: a, b) else ([], fs)
  end.
Fixpoint runs (fuel : nat) (fs : list feature) : res (list (list feature)) :=
  match fs with
  | [] => Ok []
  | f :: fs' =>
      match fuel with
      | O => Fuel
      | S n => let '(a, b) := take_run (f_meta f) fs' in do r <- runs n b; Ok ((f :: a) :: r)
      end
  end.

Section Aggregate.
(** std::sort twice, geo::simplify of one line (third party) with the tolerance 2^(20-z), which is
    passed on as uint32_t (simplify.h:15) *)
Variable srt_f : list feature -> list feature.
Variable srt_e : list lentry -> list lentry.
Variable simp : line -> N -> line.

(** :263-277; [feature f] has the default layer and zoom levels (feature.h:22-24) *)
Definition join_features (z : N) (g : list feature) : res feature :=
  match g with
  | [] => UB
  | f :: _ =>
      do ls <- map_res feature_lines g;
      do js <- join_group srt_e (concat ls);
      let js := if (z <=? 20)%N then map (fun l => simp l (2 ^ (20 - z))%N) js else js in
      Ok (Feature (f_id f) kInvalidLayer 0 0 (f_meta f) (GLine js))
  end.
(** :252-281 *)
Definition aggregate_line_features (fs : list feature) (z : N) : res (list feature) :=
  do gs <- runs (S (length fs)) (srt_f fs);
  map_res (join_features z) gs.
End Aggregate.
