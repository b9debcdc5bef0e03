(** The queues between worker threads and the thread that stores results:
    queue_wrapper and queue_processor (include/tiles/util_parallel.h), used by
    load_coastlines (src/osm/load_coastlines.cc) and repack_features
    (include/tiles/db/repack_features.h).

    Every atomic operation (a read or update of [pending_], an operation of the
    concurrent queue) is one step.  A dequeue may take any element and may time out
    at any time. *)
From Verif Require Import Base.
Open Scope N_scope.

(** ** load_coastlines *)
Section Coastlines.
(** tasks, results, fully seaside tiles *)
Context {G D Z : Type}.
(** what process_coastline does for a task, in this order (load_coastlines.cc:220-232) *)
Inductive out : Type :=
| OTask (g : G)    (** geo_q.enqueue *)
| OResult (d : D)  (** db_q.enqueue *)
| OSea (z : Z).    (** seaside_appender *)

(** worker threads, load_coastlines.cc:284-301 *)
Inductive wpc : Type :=
| WTop                               (** :285 about to read geo_queue.finished() *)
| WDeq                               (** :287 about to dequeue *)
| WRun (todo : list out)             (** :291 inside process_coastline; what is left to be done *)
| WPush (o : out) (todo : list out)  (** util_parallel.h:109-110 between ++pending_ and enqueue *)
| WExit.
(** the storing thread, load_coastlines.cc:304-314 *)
Inductive mpc : Type :=
| MTop            (** :305 about to read geo_queue.finished() *)
| MDb             (** :305 geo_queue was finished, about to read db_queue.finished() *)
| MDeq            (** :307 *)
| MHold (d : D)   (** :311-312 about to insert *)
| MFin            (** :313 about to call db_queue.finish() *)
| MExit.          (** after the loop *)

Record cst : Type := Cst {
  c_gpend : N; c_geo : list G;  (** geo_queue: pending_ and contents *)
  c_dpend : N; c_db : list D;   (** db_queue *)
  c_workers : list wpc;
  c_main : mpc;
  c_inserted : list D;          (** passed to inserter.insert *)
  c_sea : list Z }.             (** fully_seaside *)

(** load_coastlines.cc:259-272: the initial tasks are enqueued before any thread starts *)
Definition cst_init (tasks : list G) (n : nat) : cst :=
  Cst (N.of_nat (length tasks)) tasks 0 [] (repeat WTop n) MTop [] [].

Variable proc : G -> list out.
Inductive cstep : cst -> cst -> Prop :=
(** a worker: load_coastlines.cc:285 *)
| w_exit gp geo dp db w1 w2 m ins sea : gp = 0 ->
    cstep (Cst gp geo dp db (w1 ++ WTop :: w2) m ins sea) (Cst gp geo dp db (w1 ++ WExit :: w2) m ins sea)
| w_go gp geo dp db w1 w2 m ins sea : gp <> 0 ->
    cstep (Cst gp geo dp db (w1 ++ WTop :: w2) m ins sea) (Cst gp geo dp db (w1 ++ WDeq :: w2) m ins sea)
(** :287-289 *)
| w_none gp geo dp db w1 w2 m ins sea :
    cstep (Cst gp geo dp db (w1 ++ WDeq :: w2) m ins sea) (Cst gp geo dp db (w1 ++ WTop :: w2) m ins sea)
| w_take gp g1 g g2 dp db w1 w2 m ins sea :
    cstep (Cst gp (g1 ++ g :: g2) dp db (w1 ++ WDeq :: w2) m ins sea) (Cst gp (g1 ++ g2) dp db (w1 ++ WRun (proc g) :: w2) m ins sea)
(** :221 geo_q.enqueue (util_parallel.h:108-111) *)
| w_inc_task gp geo dp db w1 w2 m ins sea g r :
    cstep (Cst gp geo dp db (w1 ++ WRun (OTask g :: r) :: w2) m ins sea) (Cst (gp + 1) geo dp db (w1 ++ WPush (OTask g) r :: w2) m ins sea)
| w_push_task gp geo dp db w1 w2 m ins sea g r :
    cstep (Cst gp geo dp db (w1 ++ WPush (OTask g) r :: w2) m ins sea) (Cst gp (geo ++ [g]) dp db (w1 ++ WRun r :: w2) m ins sea)
(** :226 db_q.enqueue *)
| w_inc_result gp geo dp db w1 w2 m ins sea d r :
    cstep (Cst gp geo dp db (w1 ++ WRun (OResult d :: r) :: w2) m ins sea) (Cst gp geo (dp + 1) db (w1 ++ WPush (OResult d) r :: w2) m ins sea)
| w_push_result gp geo dp db w1 w2 m ins sea d r :
    cstep (Cst gp geo dp db (w1 ++ WPush (OResult d) r :: w2) m ins sea) (Cst gp geo dp (db ++ [d]) (w1 ++ WRun r :: w2) m ins sea)
(** :292-296 seaside_appender, under its mutex *)
| w_sea gp geo dp db w1 w2 m ins sea z r :
    cstep (Cst gp geo dp db (w1 ++ WRun (OSea z :: r) :: w2) m ins sea) (Cst gp geo dp db (w1 ++ WRun r :: w2) m ins (sea ++ [z]))
(** :297 geo_queue.finish() *)
| w_finish gp geo dp db w1 w2 m ins sea :
    cstep (Cst gp geo dp db (w1 ++ WRun [] :: w2) m ins sea) (Cst (gp - 1) geo dp db (w1 ++ WTop :: w2) m ins sea)
(** the storing thread: :305, left operand of || first *)
| m_geo_more gp geo dp db ws ins sea : gp <> 0 ->
    cstep (Cst gp geo dp db ws MTop ins sea) (Cst gp geo dp db ws MDeq ins sea)
| m_geo_fin gp geo dp db ws ins sea : gp = 0 ->
    cstep (Cst gp geo dp db ws MTop ins sea) (Cst gp geo dp db ws MDb ins sea)
| m_db_more gp geo dp db ws ins sea : dp <> 0 ->
    cstep (Cst gp geo dp db ws MDb ins sea) (Cst gp geo dp db ws MDeq ins sea)
| m_db_fin gp geo dp db ws ins sea : dp = 0 ->
    cstep (Cst gp geo dp db ws MDb ins sea) (Cst gp geo dp db ws MExit ins sea)
(** :307-309 *)
| m_none gp geo dp db ws ins sea :
    cstep (Cst gp geo dp db ws MDeq ins sea) (Cst gp geo dp db ws MTop ins sea)
| m_take gp geo dp d1 d d2 ws ins sea :
    cstep (Cst gp geo dp (d1 ++ d :: d2) ws MDeq ins sea) (Cst gp geo dp (d1 ++ d2) ws (MHold d) ins sea)
(** :311 *)
| m_insert gp geo dp db ws d ins sea :
    cstep (Cst gp geo dp db ws (MHold d) ins sea) (Cst gp geo dp db ws MFin (ins ++ [d]) sea)
(** :313 *)
| m_finish gp geo dp db ws ins sea :
    cstep (Cst gp geo dp db ws MFin ins sea) (Cst gp geo (dp - 1) db ws MTop ins sea).

Inductive creach (tasks : list G) (n : nat) : cst -> Prop :=
| cr_init : creach tasks n (cst_init tasks n)
| cr_step s s' : creach tasks n s -> cstep s s' -> creach tasks n s'.
End Coastlines.
Arguments out : clear implicits.
Arguments wpc : clear implicits.
Arguments mpc : clear implicits.
Arguments cst : clear implicits.

(** ** repack_features *)
Section Repack.
(** tasks and results *)
Context {G D : Type}.
Variable pack : G -> D.

(** queue_processor's threads, util_parallel.h:140-158, running the closure enqueued at
    repack_features.h:300-302 *)
Inductive kpc : Type :=
| KTop              (** about to dequeue *)
| KRun (g : G)      (** inside the closure, before result_queue.enqueue *)
| KPush (d : D)     (** between ++pending_ and enqueue *)
| KFin.             (** about to call work_queue.finish() *)
(** the main thread, repack_features.h:325-361.  Before the final drain it may enqueue
    tasks and take results in any pattern (the code: batches of 32; the loop condition
    of the batched dequeue only ever stops a batch early). *)
Inductive rpc : Type :=
| RWork (ts : list G)             (** tasks still to be enqueued *)
| RPush (g : G) (ts : list G)     (** between ++pending_ and enqueue *)
| RHold (d : D) (ts : list G)     (** :326 insert_result *)
| RFin (ts : list G)              (** :327 result_queue.finish() *)
| RTop                            (** :335 about to read result_queue.finished() *)
| RBoth                           (** :335 it was finished; about to read work_queue.finished() *)
| RDeq                            (** :325 *)
| RDrain (d : D)                  (** :326 *)
| RDrainFin                       (** :327 *)
| RExit.                          (** after the drain, all threads joined; the checks at :369-373 follow *)

Record rst : Type := Rst {
  r_wpend : N; r_work : list G;    (** work_queue *)
  r_rpend : N; r_res : list D;     (** result_queue *)
  r_threads : list kpc;
  r_main : rpc;
  r_inserted : list D }.           (** passed to mgr.insert_result *)

Definition rst_init (tasks : list G) (n : nat) : rst := Rst 0 [] 0 [] (repeat KTop n) (RWork tasks) [].

Inductive rstep : rst -> rst -> Prop :=
(** util_parallel.h:147: a time-out leads back to KTop and is no step *)
| k_take wp w1 g w2 rp rs k1 k2 m ins :
    rstep (Rst wp (w1 ++ g :: w2) rp rs (k1 ++ KTop :: k2) m ins) (Rst wp (w1 ++ w2) rp rs (k1 ++ KRun g :: k2) m ins)
(** repack_features.h:301 *)
| k_inc wp w rp rs k1 g k2 m ins :
    rstep (Rst wp w rp rs (k1 ++ KRun g :: k2) m ins) (Rst wp w (rp + 1) rs (k1 ++ KPush (pack g) :: k2) m ins)
| k_push wp w rp rs k1 d k2 m ins :
    rstep (Rst wp w rp rs (k1 ++ KPush d :: k2) m ins) (Rst wp w rp (rs ++ [d]) (k1 ++ KFin :: k2) m ins)
(** util_parallel.h:150 *)
| k_finish wp w rp rs k1 k2 m ins :
    rstep (Rst wp w rp rs (k1 ++ KFin :: k2) m ins) (Rst (wp - 1) w rp rs (k1 ++ KTop :: k2) m ins)
(** repack_features.h:296-302 *)
| r_inc wp w rp rs ks g ts ins :
    rstep (Rst wp w rp rs ks (RWork (g :: ts)) ins) (Rst (wp + 1) w rp rs ks (RPush g ts) ins)
| r_push wp w rp rs ks g ts ins :
    rstep (Rst wp w rp rs ks (RPush g ts) ins) (Rst wp (w ++ [g]) rp rs ks (RWork ts) ins)
(** :339-343 batched dequeue *)
| r_take wp w rp r1 d r2 ks ts ins :
    rstep (Rst wp w rp (r1 ++ d :: r2) ks (RWork ts) ins) (Rst wp w rp (r1 ++ r2) ks (RHold d ts) ins)
| r_insert wp w rp rs ks d ts ins :
    rstep (Rst wp w rp rs ks (RHold d ts) ins) (Rst wp w rp rs ks (RFin ts) (ins ++ [d]))
| r_finish wp w rp rs ks ts ins :
    rstep (Rst wp w rp rs ks (RFin ts) ins) (Rst wp w (rp - 1) rs ks (RWork ts) ins)
(** :359 dequeue_results(-1) *)
| r_drain wp w rp rs ks ins :
    rstep (Rst wp w rp rs ks (RWork []) ins) (Rst wp w rp rs ks RTop ins)
(** :335 while (!(result_queue.finished() && work_queue.finished())) *)
| r_res_more wp w rp rs ks ins : rp <> 0 ->
    rstep (Rst wp w rp rs ks RTop ins) (Rst wp w rp rs ks RDeq ins)
| r_res_fin wp w rp rs ks ins : rp = 0 ->
    rstep (Rst wp w rp rs ks RTop ins) (Rst wp w rp rs ks RBoth ins)
| r_work_more wp w rp rs ks ins : wp <> 0 ->
    rstep (Rst wp w rp rs ks RBoth ins) (Rst wp w rp rs ks RDeq ins)
| r_work_fin wp w rp rs ks ins : wp = 0 ->
    rstep (Rst wp w rp rs ks RBoth ins) (Rst wp w rp rs ks RExit ins)
| r_dnone wp w rp rs ks ins :
    rstep (Rst wp w rp rs ks RDeq ins) (Rst wp w rp rs ks RTop ins)
| r_dtake wp w rp r1 d r2 ks ins :
    rstep (Rst wp w rp (r1 ++ d :: r2) ks RDeq ins) (Rst wp w rp (r1 ++ r2) ks (RDrain d) ins)
| r_dinsert wp w rp rs ks d ins :
    rstep (Rst wp w rp rs ks (RDrain d) ins) (Rst wp w rp rs ks RDrainFin (ins ++ [d]))
| r_dfinish wp w rp rs ks ins :
    rstep (Rst wp w rp rs ks RDrainFin ins) (Rst wp w (rp - 1) rs ks RTop ins).

Inductive rreach (tasks : list G) (n : nat) : rst -> Prop :=
| rr_init : rreach tasks n (rst_init tasks n)
| rr_step s s' : rreach tasks n s -> rstep s s' -> rreach tasks n s'.

(** repack_features.h:369-373: the checks after the threads are joined *)
Definition final_check (s : rst) : res unit :=
  do _ <- verify (match r_work s with [] => true | _ => false end);
  verify (match r_res s with [] => true | _ => false end).
End Repack.
Arguments kpc : clear implicits.
Arguments rpc : clear implicits.
Arguments rst : clear implicits.
