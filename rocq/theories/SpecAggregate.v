(** Specification vocabulary for joining lines. *)
From Coq Require Import Permutation.
From Verif Require Import Base ModelTile ModelCodec ModelGeom ModelFeature ModelAggregate SpecDict.
From Verif Require Export SpecLines.
Open Scope Z_scope.

(** ** Lines and where they end *)
Definition touches (p : pt) (l : line) : Prop := first_pt l = p \/ last_pt l = p.
Definition closed_line (l : line) : Prop := first_pt l = last_pt l.

(** how many of the lines start or end at [p] *)
Definition touchesb (p : pt) (l : line) : bool := pt_eqb (first_pt l) p || pt_eqb (last_pt l) p.
Definition degree (lns : list line) (p : pt) : nat := length (filter (touchesb p) lns).

(** the drawn segments, without a direction *)
Fixpoint segments (l : line) : list (pt * pt) :=
  match l with
  | p :: ((q :: _) as l') => (p, q) :: segments l'
  | _ => []
  end.
Definition undirected (s : pt * pt) : pt * pt :=
  let '(p, q) := s in
  if (fst q <? fst p) || ((fst q =? fst p) && (snd q <? snd p)) then (q, p) else (p, q).

(** ** Routes: numbers of lines, each walked forwards (false) or backwards (true) *)
Notation route := (list (nat * bool)).
Definition oriented (lns : list line) (s : nat * bool) : line :=
  if snd s then rev (nth (fst s) lns []) else nth (fst s) lns [].
(** one line after the other; the point where two of them meet appears once *)
Definition glue (ls : list line) : line :=
  match ls with
  | [] => []
  | l :: ls' => l ++ concat (map (@tl pt) ls')
  end.
(** each line starts where the one before ends, and no third line touches that point *)
Fixpoint good_route (lns : list line) (r : route) : Prop :=
  match r with
  | a :: ((b :: _) as r') =>
      last_pt (oriented lns a) = first_pt (oriented lns b) /\
      degree lns (last_pt (oriented lns a)) = 2%nat /\ good_route lns r'
  | _ => True
  end.

(** [out] is [lns] joined at points where exactly two lines meet: every line is used exactly once *)
Definition joined_from (lns out : list line) : Prop :=
  exists routes : list route,
    Permutation (map fst (concat routes)) (seq 0 (length lns)) /\
    Forall2 (fun r o => r <> [] /\ good_route lns r /\ o = glue (map (oriented lns) r)) routes out.

(** nothing is left to join: if exactly two of the original lines meet at [p] and two of the results end
    there, then one of these is closed *)
Definition fully_joined (lns out : list line) : Prop :=
  ForallOrdPairs (fun a b => forall p, touches p a -> touches p b -> degree lns p = 2%nat ->
    closed_line a \/ closed_line b) out.

(** ** Groups of features *)
Definition lines_of (f : feature) : list line := match f_geom f with GLine ls => ls | _ => [] end.

(** the features with metadata [m] *)
Definition group_of (m : list meta) (fs : list feature) : list feature :=
  filter (fun f => if list_eq_dec meta_dec (f_meta f) m then true else false) fs.
(** at zoom levels up to 20 every line is simplified *)
Definition simplified (simp : line -> N -> line) (z : N) (ls : list line) : list line :=
  if (z <=? 20)%N then map (fun l => simp l (2 ^ (20 - z))%N) ls else ls.
(** one feature per metadata: the smallest id of the group, all lines of the group joined, simplified *)
Definition aggregated (simp : line -> N -> line) (z : N) (fs r : list feature) : Prop :=
  NoDup (map f_meta r) /\ (forall m, In m (map f_meta r) <-> In m (map f_meta fs)) /\
  Forall (fun f => exists g js,
    Permutation g (group_of (f_meta f) fs) /\
    (exists f0, In f0 g /\ f_id f0 = f_id f) /\ Forall (fun h => f_id f <= f_id h)%N g /\
    joined_from (flat_map lines_of g) js /\ fully_joined (flat_map lines_of g) js /\
    f_geom f = GLine (simplified simp z js)) r.
(** everything the features draw: the segments of all their lines, without direction *)
Definition drawn_segments (fs : list feature) : list (pt * pt) :=
  map undirected (flat_map segments (flat_map lines_of fs)).
