(** A server that goes on while an import works on the same database: src/server.cc:176-181, 204-206 with src/import.cc:66-113.
    The server reads the metadata once, when it starts (server.cc:178-180), and maps the pack file then; the length of the
    mapping is that of the file at that moment (pack_file.h:97-112).  The mapping is shared, so it shows what other processes
    write.  Each request reads the tables in a transaction of its own (get_tile.h:229-232).
    Simplification: a request sees the pack file as it is at one moment. *)
From Verif Require Import Base ModelTile ModelPackFile ModelTable ModelRender ModelImport ModelCrash.
Open Scope N_scope.

(** the pack file as a server sees it that was started on [st0], when the files are those of [st].  If the file has become shorter,
    reading behind its end is undefined ([pf_get]) *)
Definition live_file (st0 st : store) : pfile := PFile (st_pack st) (pf_size (pf_open (st_pack st0))).
(** its answer for a tile *)
Definition live_serve (L : libs) (st0 st : store) (t : tile) : res (option bytes) :=
  do x <- make_render_ctx L (st_meta st0);
  get_tile (st_tiles st) (st_features st) (live_file st0 st) x t.

(** the files at some moment of a run that does not load anything, after it was stopped (killed or by an exception), or after it *)
Definition during (L : libs) (tasks : list bytes) (j : job) (st0 st : store) : Prop :=
  (exists killed pk pr wh, stopped_run L tasks j st0 killed pk pr wh st) \/ import_run L tasks j st0 st.
