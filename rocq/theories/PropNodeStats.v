(** C82: what the node index consists of, its size and its statistics. *)
From Verif Require Import Base BaseProof ModelCodec ModelNodeIdx ModelNodeStats SpecNodeStats ProofNodeStats.
From Coq Require Import List.
Import ListNotations.
Open Scope Z_scope.

(** For every stream of nodes that is accepted: the data file consists of gaps and runs, the nodes of the runs are
    the nodes of the stream in their order, and a run goes on as long as its differences are not longer than a run
    of its own.  The statistics are computed without leaving their arrays, and every line tells the truth. *)
Theorem c82_statistics : forall ns idx dat, build_index ns = Ok (idx, dat) ->
  exists segs st, build_index_st ns = Ok (idx, dat, st) /\
    dat = flat_map seg_bytes segs /\ flat_map seg_nodes segs = stream_nodes ns /\ runs_fit segs /\
    dump_stats idx dat st =
      [LIndexSize (N.of_nat (length idx)); LDataSize (N.of_nat (length dat));
       LNodes (N.of_nat (length (stream_nodes ns))); LSpans (N.of_nat (length (filter is_run segs)))]
      ++ map (fun i => LChars i (N.of_nat (diffs_of_size i segs))) [0; 1; 2; 3; 4; 5; 6]%nat
      ++ map (fun l => LCumSpans l (N.of_nat (runs_up_to l segs))) [1; 64; 100; 1000; 10000]%N.
Proof.
  intros ns idx dat H. destruct (build_stats ns idx dat H) as (st & segs & H1 & H2 & H3 & H4 & H5 & H6 & H7 & H8 & _).
  exists segs, st. split; [exact H1|]. split; [exact H2|]. split; [exact H4|]. split; [exact H3|].
  unfold dump_stats. rewrite H5, H6, H7, H8. reflexivity.
Qed.
Print Assumptions c82_statistics.

(** The size: nine bytes for every node, one byte more for every 64 of them, ten for every break in the ids and
    ten at the end. *)
Theorem c82_size : forall ns idx dat, build_index ns = Ok (idx, dat) ->
  (64 * length dat <= (9 * 64 + 1) * length (stream_nodes ns) + 64 * 10 * (stream_breaks ns + 1))%nat.
Proof. intros ns idx dat H. destruct (build_stats ns idx dat H) as (st & segs & _ & _ & _ & _ & _ & _ & _ & _ & H9 & _). lia. Qed.
Print Assumptions c82_size.

(** One entry of the index for 1025 nodes or more *)
Theorem c82_entries : forall ns idx dat, build_index ns = Ok (idx, dat) ->
  (1025 * (length idx - 1) <= length (stream_nodes ns))%nat.
Proof. intros ns idx dat H. destruct (build_stats ns idx dat H) as (st & segs & _ & _ & _ & _ & _ & _ & _ & _ & _ & H9). exact H9. Qed.
Print Assumptions c82_entries.

(** Five nodes, one of them named twice: a run of two, one alone since it is far away, a gap, a run of two. *)
Definition c82_stream : list (Z * (Z * Z)) :=
  [(7, (1000, 2000)); (-8, (1001, 1990)); (8, (1001, 1990)); (9, (4000000000, 4000000000)); (20, (5, 5)); (21, (5, 5))].
Example c82_ex : exists idx dat st, build_index_st c82_stream = Ok (idx, dat, st) /\ build_index c82_stream = Ok (idx, dat) /\
  dump_stats idx dat st = [LIndexSize 1; LDataSize 33; LNodes 5; LSpans 3;
    LChars 0 0; LChars 1 4; LChars 2 0; LChars 3 0; LChars 4 0; LChars 5 0; LChars 6 0;
    LCumSpans 1 1; LCumSpans 64 3; LCumSpans 100 3; LCumSpans 1000 3; LCumSpans 10000 3].
Proof.
  destruct (build_index_st c82_stream) as [[[idx dat] st]| | |] eqn:E; [|vm_compute in E; discriminate..].
  exists idx, dat, st. split; [reflexivity|]. vm_compute in E. injection E as <- <- <-. split; vm_compute; reflexivity.
Qed.
