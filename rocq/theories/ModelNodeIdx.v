(** The hybrid node index: src/osm/hybrid_node_idx.cc, include/tiles/osm/hybrid_node_idx.h. *)
From Verif Require Import Base ModelCodec.
Open Scope Z_scope.

(** fixed_xy *)
Notation npos := (Z * Z)%type.
Definition no_bytes (l : bytes) : bool := match l with [] => true | _ => false end.
(** std::abs of an int64_t: undefined for the smallest value *)
Definition abs64 (z : Z) : res Z := if z =? min64 then UB else Ok (Z.abs z).
(** int64_t arithmetic done in uint64_t (an operand is a size_t): wraps *)
Definition wrap64 (z : Z) : Z := to_i64 (to_u64 z).

(** ** hybrid_node_idx_builder::impl, :337-506 *)
(** idx_ (id, offset), dat_, last_id_, last_pos_, span_, coords_written_; the statistics are not
    modelled.  Both files are empty at the start (load_osm.cc:54-62: temporary files). *)
Record nbuilder := NB {
  nb_idx : list (Z * N); nb_dat : bytes; nb_last : Z; nb_pos : npos; nb_span : list npos; nb_written : N }.
(** :490-496 *)
Definition nb_init : nbuilder := NB [] [] min64 (0, 0) [] 0.

(** :460-467 get_varint_size *)
Fixpoint varint_size (fuel : nat) (v : N) : N :=
  match fuel with
  | O => 1
  | S f => if (v <? 128)%N then 1 else 1 + varint_size f (v / 128)
  end%N.

(** :395-410 how many of the following coordinates belong to the span that starts with (x, y).
    Coordinates are between 0 and 2^32-1 (checked in push), so the differences do not overflow. *)
Fixpoint span_more (x y : Z) (cs : list npos) : nat :=
  match cs with
  | [] => 0%nat
  | (x', y') :: cs' =>
      let sx := varint_size 10 (zigzag (x' - x)) in
      let sy := varint_size 10 (zigzag (y' - y)) in
      if (9 <? sx + sy)%N then 0%nat else S (span_more x' y' cs')
  end.
(** :420-424 *)
Fixpoint span_deltas (x y : Z) (cs : list npos) : bytes :=
  match cs with
  | [] => []
  | (x', y') :: cs' => varint_enc (zigzag (x' - x)) ++ varint_enc (zigzag (y' - y)) ++ span_deltas x' y' cs'
  end.
(** :453-458 push_fixed *)
Definition fixed_enc (v : Z) : bytes := le_bytes 4 (to_u32 v).
(** :392-433 the loop over the spans *)
Fixpoint coord_spans (fuel : nat) (cs : list npos) : res bytes :=
  match cs with
  | [] => Ok []
  | (x, y) :: tl =>
      match fuel with
      | O => Fuel
      | S f =>
          let n := span_more x y tl in
          do r <- coord_spans f (skipn n tl);
          Ok (varint_enc (N.of_nat n * 2) ++ fixed_enc x ++ fixed_enc y ++ span_deltas x y (firstn n tl) ++ r)
      end
  end.

(** :381-437 push_coord_span *)
Definition push_coord_span (b : nbuilder) : res nbuilder :=
  match nb_span b with
  | [] => Ok b
  | _ =>
      let start := wrap64 (nb_last b - Z.of_nat (length (nb_span b)) + 1) in
      let '(idx, w) :=
        if match nb_idx b with [] => true | _ => false end || (1024 <? nb_written b)%N
        then (nb_idx b ++ [(start, blen (nb_dat b))], 0%N)
        else (nb_idx b, nb_written b) in
      do d <- coord_spans (length (nb_span b)) (nb_span b);
      Ok (NB idx (nb_dat b ++ d) (nb_last b) (nb_pos b) [] (w + N.of_nat (length (nb_span b))))
  end.

(** :439-441 push_empty_span *)
Definition push_empty_span (next : Z) (b : nbuilder) : res nbuilder :=
  do g <- sub64 next (nb_last b);
  do g <- sub64 g 1;
  Ok (NB (nb_idx b) (nb_dat b ++ varint_enc (to_u64 (g * 2) + 1)) (nb_last b) (nb_pos b) (nb_span b) (nb_written b)).

(** :344-374 push *)
Definition nb_push (b : nbuilder) (id : Z) (p : npos) : res nbuilder :=
  do _ <- verify ((0 <=? fst p) && (0 <=? snd p) && (fst p <=? 2 ^ 32 - 1) && (snd p <=? 2 ^ 32 - 1));
  do a <- abs64 id;
  if a =? nb_last b then
    do _ <- verify ((fst p =? fst (nb_pos b)) && (snd p =? snd (nb_pos b)));
    Ok b
  else
    do _ <- verify (nb_last b <? a);
    do n <- add64 (nb_last b) 1;
    do b <- if negb (n =? a) && negb (match nb_span b with [] => true | _ => false end)
            then do b <- push_coord_span b; push_empty_span a b
            else Ok b;
    Ok (NB (nb_idx b) (nb_dat b) a p (nb_span b ++ [p]) (nb_written b)).

(** :376-379 finish *)
Definition nb_finish (b : nbuilder) : res nbuilder :=
  do b <- push_coord_span b;
  do n <- add64 (nb_last b) 1;
  push_empty_span n b.

(** a stream of pushes, then finish: the two files *)
Fixpoint push_nodes (b : nbuilder) (ns : list (Z * npos)) : res nbuilder :=
  match ns with
  | [] => Ok b
  | (id, p) :: ns' => do b <- nb_push b id p; push_nodes b ns'
  end.
Definition build_index (ns : list (Z * npos)) : res (list (Z * N) * bytes) :=
  do b <- push_nodes nb_init ns;
  do b <- nb_finish b;
  Ok (nb_idx b, nb_dat b).

(** ** Reading *)
(** :76-85 read_fixed: no bounds check *)
Definition read_fixed (bs : bytes) : res (Z * bytes) :=
  match bs with
  | a :: b :: c :: d :: r => Ok (Z.of_N (le_val [a; b; c; d]), r)
  | _ => UB
  end.
(** delta_decoder::decode of the next zigzag varint, :133-136 and delta.h:31-34 *)
Definition read_delta (cur : Z) (bs : bytes) : res (Z * bytes) :=
  do (v, bs) <- varint_dec bs;
  do c <- add64 cur (unzigzag v);
  Ok (c, bs).
(** protozero::skip_varint (third party) *)
Fixpoint skip_varint (more : nat) (bs : bytes) : res bytes :=
  match bs with
  | [] => Throw
  | b :: r => if (b <? 128)%N then Ok r else match more with O => Throw | S m => skip_varint m r end
  end.

(** std::lower_bound (library) with the comparison :96-99, :190-192 *)
Fixpoint idx_bound (fuel first len : nat) (idx : list (Z * N)) (q : Z) : nat :=
  match fuel with
  | O => first
  | S f =>
      if (len =? 0)%nat then first else
      let half := Nat.div2 len in
      let mid := (first + half)%nat in
      match nth_error idx mid with
      | Some e => if fst e <? q then idx_bound f (S mid) (len - half - 1) idx q
                  else idx_bound f first half idx q
      | None => first
      end
  end.
(** :95-107 and :190-198 the entry to start from; [None]: all entries are greater *)
Definition find_entry (idx : list (Z * N)) (q : Z) : option (Z * N) :=
  let k := idx_bound (S (length idx)) 0 (length idx) idx q in
  match nth_error idx k with
  | Some e => if fst e =? q then Some e else match k with O => None | S k' => nth_error idx k' end
  | None => match k with O => None | S k' => nth_error idx k' end
  end.

(** :132-142 the rest of a span: [inl]: found, [inr]: where it ended *)
Fixpoint walk_span (fuel : nat) (n : N) (cur x y : Z) (bs : bytes) (q : Z) : res (npos + Z * bytes) :=
  if (n =? 0)%N then Ok (inr (cur, bs)) else
  match fuel with
  | O => Fuel
  | S f =>
      do (x, bs) <- read_delta x bs;
      do (y, bs) <- read_delta y bs;
      if cur =? q then Ok (inl (x, y)) else
      do c <- add64 cur 1;
      walk_span f (n - 1) c x y bs q
  end.

(** :108-144 *)
Fixpoint look (fuel : nat) (cur : Z) (bs : bytes) (q : Z) : res (option npos) :=
  match fuel with
  | O => Fuel
  | S f =>
      if (cur <=? q) && negb (no_bytes bs) then
        do (h, bs) <- varint_dec bs;
        let n := (h / 2)%N in
        if N.odd h then
          if (n =? 0)%N then Ok None
          else look f (wrap64 (cur + Z.of_N n)) bs q
        else
          do (x, bs) <- read_fixed bs;
          do (y, bs) <- read_fixed bs;
          if cur =? q then Ok (Some (x, y)) else
          do c <- add64 cur 1;
          do r <- walk_span (S (length bs)) n c x y bs q;
          match r with
          | inl p => Ok (Some p)
          | inr (c, bs) => look f c bs q
          end
      else Ok None
  end.

(** :87-145 get_coords(nodes, id) *)
Definition get_coords (idx : list (Z * N)) (dat : bytes) (id : Z) : res (option npos) :=
  match idx with
  | [] => Ok None
  | _ =>
      do q <- abs64 id;
      match find_entry idx q with
      | None => Ok None
      | Some (cur, off) => if (blen dat <? off)%N then UB else look (S (length dat)) cur (skipn (N.to_nat off) dat) q
      end
  end.

(** ** The batch lookup, :147-295 *)
(** a query: absolute id, and which location it is for *)
Notation nquery := (Z * nat)%type.
Inductive nfsm : Type :=
| FromIndex
| SpanStart (cur : Z) (bs : bytes)
| InSpan (cur : Z) (bs : bytes) (size pos : Z) (x y : Z).

(** :176-180, :223-226 *)
Fixpoint drop_below (c : Z) (qs : list nquery) : list nquery :=
  match qs with
  | [] => []
  | (q, s) :: qs' => if q <? c then drop_below c qs' else qs
  end.
(** :267-271 *)
Fixpoint set_equal (c : Z) (p : npos) (qs : list nquery) (ws : list (nat * npos)) : list nquery * list (nat * npos) :=
  match qs with
  | [] => ([], ws)
  | (q, s) :: qs' => if q =? c then set_equal c p qs' (ws ++ [(s, p)]) else (qs, ws)
  end.
(** :240-244, :284-288 skipping [n] coordinates *)
Fixpoint skip_coords (fuel : nat) (n : N) (bs : bytes) : res bytes :=
  if (n =? 0)%N then Ok bs else
  match fuel with
  | O => Fuel
  | S f => do bs <- skip_varint 9 bs; do bs <- skip_varint 9 bs; skip_coords f (n - 1) bs
  end.
(** :254-264 *)
Fixpoint advance (fuel : nat) (cur : Z) (bs : bytes) (size pos : Z) (x y q : Z) : res (Z * bytes * Z * Z * Z) :=
  if cur =? q then Ok (cur, bs, pos, x, y) else
  match fuel with
  | O => Fuel
  | S f =>
      do _ <- verify (negb (no_bytes bs));
      do _ <- verify (pos <? size);
      do (x, bs) <- read_delta x bs;
      do (y, bs) <- read_delta y bs;
      do c <- add64 cur 1;
      advance f c bs size (pos + 1) x y q
  end.

Section Batch.
Variable idx : list (Z * N).
Variable dat : bytes.

Fixpoint batch (fuel : nat) (st : nfsm) (qs : list nquery) (ws : list (nat * npos)) : res (list (nat * npos)) :=
  match fuel with
  | O => Fuel
  | S f =>
      match qs with
      | [] => Ok ws
      | (q, _) :: _ =>
          match st with
          | FromIndex =>
              (* :189-203 *)
              match find_entry idx q with
              | None => Throw
              | Some (cur, off) => if (blen dat <? off)%N then UB else batch f (SpanStart cur (skipn (N.to_nat off) dat)) qs ws
              end
          | SpanStart cur bs =>
              (* :206-249 *)
              do (h, bs) <- varint_dec bs;
              let n := Z.of_N (h / 2) in
              if N.odd h then
                if n =? 0 then Ok ws else do c <- add64 cur n; batch f (SpanStart c bs) qs ws
              else
                do size <- add64 n 1;
                if q <? cur then
                  let qs := drop_below cur qs in
                  do (x, bs) <- read_fixed bs; do (y, bs) <- read_fixed bs;
                  batch f (InSpan cur bs size 0 x y) qs ws
                else
                  do e <- add64 cur size;
                  if q <? e then
                    do (x, bs) <- read_fixed bs; do (y, bs) <- read_fixed bs;
                    batch f (InSpan cur bs size 0 x y) qs ws
                  else
                    (* the counter of the loop is an int *)
                    if (blen bs <? 8)%N then UB else
                    do bs <- skip_coords (S (length bs)) (Z.to_N n) (skipn 8 bs);
                    if 2 ^ 31 <=? size then UB else
                    batch f (SpanStart e bs) qs ws
          | InSpan cur bs size pos x y =>
              (* :252-292 *)
              do e <- add64 cur (size - pos);
              if q <? e then
                do (a, y) <- advance (S (length bs)) cur bs size pos x y q;
                let '(cur, bs, pos, x) := a in
                do _ <- verify (q =? cur);
                let '(qs, ws) := set_equal q (x, y) qs ws in
                batch f (InSpan cur bs size pos x y) qs ws
              else
                do far <- add64 cur 1024;
                if far <? q then batch f FromIndex qs ws
                else
                  let rest := Z.max 0 (size - (pos + 1)) in
                  do bs <- skip_coords (S (length bs)) (Z.to_N rest) bs;
                  do c <- add64 cur rest;
                  do c <- add64 c 1;
                  batch f (SpanStart c bs) qs ws
          end
      end
  end.

(** std::sort, :173-175 *)
Variable srt : list nquery -> list nquery.
Definition query_ltb (a b : nquery) : bool := fst a <? fst b.

(** :147-180; every id is passed to std::abs.  The result: which locations are set to what (in this
    order).  The fuel is enough (batch_spec). *)
Definition get_batch (qs : list (Z * nat)) : res (list (nat * npos)) :=
  match idx with
  | [] => Ok []
  | (first, _) :: _ =>
      do qs <- map_res (fun q => do a <- abs64 (fst q); Ok (a, snd q)) qs;
      batch ((3 * length dat + 12) * S (length qs)) FromIndex (drop_below first (srt qs)) []
  end.
End Batch.

(** ** Locations *)
(** int32_t: osmium::Location; implicit conversion wraps (implementation-defined, gcc and clang) *)
Definition to_i32 (z : Z) : Z := let m := z mod 2 ^ 32 in if m <? 2 ^ 31 then m else m - 2 ^ 32.
Definition sub32 (a b : Z) : res Z :=
  if (- 2 ^ 31 <=? a - b) && (a - b <? 2 ^ 31) then Ok (a - b) else UB.
(** hybrid_node_idx.h:18-19 *)
Definition x_offset : Z := 1800000000.
Definition y_offset : Z := 900000000.
(** osmium::Location::undefined_coordinate *)
Definition undef_coord : Z := 2147483647.

(** hybrid_node_idx.h:57-62 node(): int64 arithmetic *)
Definition node_pos (l : npos) : npos := (fst l + x_offset, snd l + y_offset).

(** :297-318 update_locations on the node refs (ref, location) of all ways in a buffer *)
Definition assoc_slot (s : nat) (ws : list (nat * npos)) : option npos :=
  option_map snd (find (fun w => (fst w =? s)%nat) ws).
Definition update_with (sub : Z -> Z -> res Z) (srt : list nquery -> list nquery) (idx : list (Z * N)) (dat : bytes) (refs : list (Z * npos)) : res (list npos) :=
  match refs with
  | [] => Ok []
  | _ =>
      do ws <- get_batch idx dat srt (combine (map fst refs) (seq 0 (length refs)));
      map_res (fun r =>
        let l := match assoc_slot (snd r) ws with Some p => (to_i32 (fst p), to_i32 (snd p)) | None => snd (fst r) end in
        do x <- sub (fst l) x_offset;
        do y <- sub (snd l) y_offset;
        Ok (x, y)) (combine refs (seq 0 (length refs)))
  end.
Definition update_locations := update_with sub32.
(** the subtraction of :313-316 as a compiler translates it that lets int32_t wrap around (gcc and clang with
    -fwrapv; not what the language promises) *)
Definition wsub32 (a b : Z) : res Z := Ok (to_i32 (a - b)).

(** :327-335 hybrid_node_idx::way *)
Definition way_locations (idx : list (Z * N)) (dat : bytes) (refs : list Z) : res (list npos) :=
  map_res (fun id =>
    do p <- get_coords idx dat id;
    match p with
    | None => Throw
    | Some (x, y) => do x <- sub64 x x_offset; do y <- sub64 y y_offset; Ok (to_i32 x, to_i32 y)
    end) refs.
