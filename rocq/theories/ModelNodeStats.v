(** The statistics of the node index builder: src/osm/hybrid_node_idx.cc (the same functions as in
    ModelNodeIdx, with the counters that are left out there). *)
From Verif Require Import Base ModelCodec ModelNodeIdx.
Open Scope Z_scope.

(** :498-504 stat_nodes_, stat_spans_, stat_coord_chars_ (array of 7), stat_span_cum_sizes_ (array of 5) *)
Record nstats := NStats { s_nodes : N; s_spans : N; s_chars : list N; s_cum : list N }.
Definition nstats0 : nstats := NStats 0 0 (repeat 0%N 7) (repeat 0%N 5).
(** :502-503 kStatSpanCumSizeLimits *)
Definition cum_limits : list N := [1; 64; 100; 1000; 10000]%N.

(** ++array[i]: a write behind the array is undefined *)
Fixpoint bump (i : nat) (l : list N) : res (list N) :=
  match l, i with
  | [], _ => UB
  | c :: l', O => Ok ((c + 1)%N :: l')
  | c :: l', S i' => do r <- bump i' l'; Ok (c :: r)
  end.
(** :409-410 the counter of a number that takes [s] bytes *)
Definition char_slot (s : N) : nat := N.to_nat (if (s <? 10)%N then s else 0%N).

(** :398-411 the loop that looks for the end of a span *)
Fixpoint span_more_st (x y : Z) (cs : list npos) (chars : list N) : res (nat * list N) :=
  match cs with
  | [] => Ok (0%nat, chars)
  | (x', y') :: cs' =>
      let sx := varint_size 10 (zigzag (x' - x)) in
      let sy := varint_size 10 (zigzag (y' - y)) in
      if (9 <? sx + sy)%N then Ok (0%nat, chars)
      else
        do c1 <- bump (char_slot sx) chars;
        do c2 <- bump (char_slot sy) c1;
        do (n, c3) <- span_more_st x' y' cs' c2;
        Ok (S n, c3)
  end.

(** :428-432 *)
Definition count_span (size : N) (cum : list N) : list N :=
  map (fun lc => if (size <=? fst lc)%N then (snd lc + 1)%N else snd lc) (combine cum_limits cum).

(** :392-433 *)
Fixpoint coord_spans_st (fuel : nat) (cs : list npos) (st : nstats) : res (bytes * nstats) :=
  match cs with
  | [] => Ok ([], st)
  | (x, y) :: tl =>
      match fuel with
      | O => Fuel
      | S f =>
          do (n, chars) <- span_more_st x y tl (s_chars st);
          let st := NStats (s_nodes st) (s_spans st + 1) chars (count_span (N.of_nat n + 1) (s_cum st)) in
          do (r, st) <- coord_spans_st f (skipn n tl) st;
          Ok (varint_enc (N.of_nat n * 2) ++ fixed_enc x ++ fixed_enc y ++ span_deltas x y (firstn n tl) ++ r, st)
      end
  end.

(** :381-437 push_coord_span *)
Definition push_coord_span_st (b : nbuilder) (st : nstats) : res (nbuilder * nstats) :=
  match nb_span b with
  | [] => Ok (b, st)
  | _ =>
      let start := wrap64 (nb_last b - Z.of_nat (length (nb_span b)) + 1) in
      let '(idx, w) :=
        if match nb_idx b with [] => true | _ => false end || (1024 <? nb_written b)%N
        then (nb_idx b ++ [(start, blen (nb_dat b))], 0%N)
        else (nb_idx b, nb_written b) in
      do (d, st) <- coord_spans_st (length (nb_span b)) (nb_span b) st;
      Ok (NB idx (nb_dat b ++ d) (nb_last b) (nb_pos b) [] (w + N.of_nat (length (nb_span b))), st)
  end.

(** :344-374 push *)
Definition nb_push_st (b : nbuilder) (st : nstats) (id : Z) (p : npos) : res (nbuilder * nstats) :=
  do _ <- verify ((0 <=? fst p) && (0 <=? snd p) && (fst p <=? 2 ^ 32 - 1) && (snd p <=? 2 ^ 32 - 1));
  do a <- abs64 id;
  if a =? nb_last b then
    do _ <- verify ((fst p =? fst (nb_pos b)) && (snd p =? snd (nb_pos b)));
    Ok (b, st)
  else
    do _ <- verify (nb_last b <? a);
    let st := NStats (s_nodes st + 1) (s_spans st) (s_chars st) (s_cum st) in
    do n <- add64 (nb_last b) 1;
    do (b, st) <- if negb (n =? a) && negb (match nb_span b with [] => true | _ => false end)
            then do (b, st) <- push_coord_span_st b st; do b <- push_empty_span a b; Ok (b, st)
            else Ok (b, st);
    Ok (NB (nb_idx b) (nb_dat b) a p (nb_span b ++ [p]) (nb_written b), st).

(** :376-379 finish *)
Definition nb_finish_st (b : nbuilder) (st : nstats) : res (nbuilder * nstats) :=
  do (b, st) <- push_coord_span_st b st;
  do n <- add64 (nb_last b) 1;
  do b <- push_empty_span n b;
  Ok (b, st).

(** load_osm.cc:64-77: a stream of pushes, then finish: the two files and the counters *)
Fixpoint push_nodes_st (b : nbuilder) (st : nstats) (ns : list (Z * npos)) : res (nbuilder * nstats) :=
  match ns with
  | [] => Ok (b, st)
  | (id, p) :: ns' => do (b, st) <- nb_push_st b st id p; push_nodes_st b st ns'
  end.
Definition build_index_st (ns : list (Z * npos)) : res (list (Z * N) * bytes * nstats) :=
  do (b, st) <- push_nodes_st nb_init nstats0 ns;
  do (b, st) <- nb_finish_st b st;
  Ok (nb_idx b, nb_dat b, st).

(** :469-484 dump_stats, the lines in order (their text is left out) *)
Inductive stat_line :=
| LIndexSize (n : N)
| LDataSize (n : N)
| LNodes (n : N)
| LSpans (n : N)
| LChars (i : nat) (n : N)
| LCumSpans (limit n : N).
Definition dump_stats (idx : list (Z * N)) (dat : bytes) (st : nstats) : list stat_line :=
  [LIndexSize (N.of_nat (length idx)); LDataSize (blen dat); LNodes (s_nodes st); LSpans (s_spans st)]
  ++ map (fun i => LChars i (nth i (s_chars st) 0%N)) (seq 0 (length (s_chars st)))
  ++ map (fun i => LCumSpans (nth i cum_limits 0%N) (nth i (s_cum st) 0%N)) (seq 0 (length cum_limits)).
