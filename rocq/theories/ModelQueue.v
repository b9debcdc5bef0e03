(** Ordering work of several threads: include/tiles/util_parallel.h,
    sequential_until_finish and in_order_queue.

    Threads are interleaved at the granularity of the code's critical sections: every
    access to a shared member happens with [mutex_] held, so a critical section is one
    step.  A call of the consumer [fn] is two steps (it begins, it returns or throws),
    so that overlapping calls would be visible in the trace.  Item indices are
    unbounded (the code: size_t). *)
From Verif Require Import Base.
Open Scope N_scope.

Section Queue.
Context {T : Type}.
(** util_parallel.h:44,101: an item with its index *)
Definition item : Type := N * T.

(** what an observer of [fn] sees *)
Inductive event : Type :=
| Begin (x : item)
| End (x : item)
| Threw (x : item).

(** where a thread is within process_in_order (util_parallel.h:43-97) *)
Inductive pc : Type :=
| Idle                                  (** not inside a call *)
| Entry (x : item)                      (** :44, before the first critical section *)
| Work (cur : item) (rest : list item)  (** :53 or :84-86, about to call fn(cur), then for rest *)
| InFn (cur : item) (rest : list item)  (** fn(cur) is running *)
| Update (last : N)                     (** :55 or :88, about to set next_expected_ *)
| Scan.                                 (** :60, top of the loop *)

(** util_parallel.h:97-101 the members, the threads, and what happened so far: the
    calls made and the trace of [fn] *)
Record ioq : Type := Ioq {
  q_dirty : bool;
  q_active : bool;
  q_next : N;
  q_queue : list item;
  q_threads : list pc;
  q_calls : list item;
  q_trace : list event }.

(** util_parallel.h:98-101 initial values, [n] threads *)
Definition ioq_init (n : nat) : ioq := Ioq false false 0 [] (repeat Idle n) [] [].

(** util_parallel.h:69-78: pop consecutive items from the back.  [rq] is the queue
    from its back to its front. *)
Fixpoint pop_ready (next : N) (rq : list item) : list item * list item :=
  match rq with
  | x :: r => if fst x =? next then let '(rdy, lft) := pop_ready (next + 1) r in (x :: rdy, lft) else ([], rq)
  | [] => ([], [])
  end.

(** util_parallel.h:43-97, one step of one thread *)
Inductive ioq_step (srt : list item -> list item) : ioq -> ioq -> Prop :=
(** a thread calls process_in_order(idx, t, fn); no index is passed twice *)
| st_call d a n q ts1 ts2 cs tr x : ~ In (fst x) (map fst cs) ->
    ioq_step srt (Ioq d a n q (ts1 ++ Idle :: ts2) cs tr) (Ioq d a n q (ts1 ++ Entry x :: ts2) (cs ++ [x]) tr)
(** :46-51 not this item's turn *)
| st_defer d a n q ts1 ts2 cs tr x : negb (n =? fst x) || a = true ->
    ioq_step srt (Ioq d a n q (ts1 ++ Entry x :: ts2) cs tr) (Ioq true a n (q ++ [x]) (ts1 ++ Idle :: ts2) cs tr)
(** :47,52 *)
| st_take d a n q ts1 ts2 cs tr x : negb (n =? fst x) || a = false ->
    ioq_step srt (Ioq d a n q (ts1 ++ Entry x :: ts2) cs tr) (Ioq d true n q (ts1 ++ Work x [] :: ts2) cs tr)
(** :54, :85 fn begins *)
| st_begin d a n q ts1 ts2 cs tr (x : item) (r : list item) :
    ioq_step srt (Ioq d a n q (ts1 ++ Work x r :: ts2) cs tr) (Ioq d a n q (ts1 ++ InFn x r :: ts2) cs (tr ++ [Begin x]))
(** :54, :84-86 fn returns *)
| st_end d a n q ts1 ts2 cs tr (x : item) (r : list item) :
    ioq_step srt (Ioq d a n q (ts1 ++ InFn x r :: ts2) cs tr)
      (Ioq d a n q (ts1 ++ match r with [] => Update (fst x) | y :: r' => Work y r' end :: ts2) cs (tr ++ [End x]))
(** fn throws: nothing is caught, the call is lft *)
| st_throw d a n q ts1 ts2 cs tr (x : item) (r : list item) :
    ioq_step srt (Ioq d a n q (ts1 ++ InFn x r :: ts2) cs tr) (Ioq d a n q (ts1 ++ Idle :: ts2) cs (tr ++ [Threw x]))
(** :55-58, :88-91 *)
| st_update d a n q ts1 ts2 cs tr (l : N) :
    ioq_step srt (Ioq d a n q (ts1 ++ Update l :: ts2) cs tr) (Ioq d a (l + 1) q (ts1 ++ Scan :: ts2) cs tr)
(** :61-83 *)
| st_scan (d : bool) a n q ts1 ts2 cs tr rdy lft :
    pop_ready n (rev (if d then srt q else q)) = (rdy, lft) ->
    ioq_step srt (Ioq d a n q (ts1 ++ Scan :: ts2) cs tr)
      match rdy with
      | [] => Ioq false false n (rev lft) (ts1 ++ Idle :: ts2) cs tr
      | y :: r' => Ioq false a n (rev lft) (ts1 ++ Work y r' :: ts2) cs tr
      end.

(** states reachable with [n] threads *)
Inductive ioq_reach (srt : list item -> list item) (n : nat) : ioq -> Prop :=
| reach_init : ioq_reach srt n (ioq_init n)
| reach_step s s' : ioq_reach srt n s -> ioq_step srt s s' -> ioq_reach srt n s'.

(** ** sequential_until_finish feeding the queue *)

(** util_parallel.h:33-38 members; [u_src] is what the remaining calls of [fn_] return
    (nothing after the last: [fn_] returns null) *)
Record suf : Type := Suf { u_finished : bool; u_counter : N; u_src : list T }.

(** util_parallel.h:19-31 process(), under the mutex *)
Definition suf_process (u : suf) : option item * suf :=
  if u_finished u then (None, u)
  else match u_src u with
       | [] => (None, Suf true (u_counter u) [])
       | t :: r => (Some (u_counter u, t), Suf false (u_counter u + 1) r)
       end.

(** every thread repeats: process(), then process_in_order with what it got *)
Inductive feed_step (srt : list item -> list item) : suf * ioq -> suf * ioq -> Prop :=
| fs_pull u u' d a n q ts1 ts2 cs tr x : suf_process u = (Some x, u') ->
    feed_step srt (u, Ioq d a n q (ts1 ++ Idle :: ts2) cs tr) (u', Ioq d a n q (ts1 ++ Entry x :: ts2) (cs ++ [x]) tr)
| fs_none u u' s : suf_process u = (None, u') -> feed_step srt (u, s) (u', s)
| fs_queue u s s' : ioq_step srt s s' -> q_calls s' = q_calls s -> feed_step srt (u, s) (u, s').
Inductive feed_reach (srt : list item -> list item) (n : nat) (src : list T) : suf * ioq -> Prop :=
| fr_init : feed_reach srt n src (Suf false 0 src, ioq_init n)
| fr_step s s' : feed_reach srt n src s -> feed_step srt s s' -> feed_reach srt n src s'.
End Queue.
Arguments item : clear implicits.
Arguments event : clear implicits.
Arguments pc : clear implicits.
Arguments ioq : clear implicits.
Arguments suf : clear implicits.
