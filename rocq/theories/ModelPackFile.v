(** The pack file: include/tiles/db/pack_file.h *)
From Verif Require Import Base ModelTile.
Open Scope N_scope.

(** State of an open pack_handle (pack_file.h:96-159).  [pf_mem] is the mapped
    file, [pf_size] the vector's size().  osmium's mmap_vector_file (third
    party) maps the file in larger steps filled with the default value '\0';
    the model maps exactly what was ever needed: bytes behind [pf_mem] are '\0'
    and are not represented. *)
Record pfile := PFile { pf_mem : bytes; pf_size : N }.

Definition pf_empty : pfile := PFile [] 0.

Definition zeros (n : N) : bytes := repeat 0 (N.to_nat n).

(** mmap_vector_base::resize (third party), used at pack_file.h:130,142,150:
    growing keeps the bytes and zero-fills fresh memory, shrinking only changes
    the size (old bytes stay in the mapping). *)
Definition pf_resize (s : pfile) (n : N) : pfile :=
  PFile (pf_mem s ++ zeros (n - blen (pf_mem s))) n.

(** memcpy/memmove of [d] into the mapping at [off] *)
Definition write_at (m : bytes) (off : N) (d : bytes) : bytes :=
  firstn (N.to_nat off) m ++ d ++ skipn (N.to_nat off + length d) m.

(** pack_file.h:132-138 get: the bounds check adds two size_t (wraps);
    a record that passes although it leaves the mapping is UB. *)
Definition pf_get (s : pfile) (r : pack_record) : res bytes :=
  do _ <- verify ((r_off r <? pf_size s) && ((r_off r + r_size r) mod 2 ^ 64 <=? pf_size s));
  if r_off r + r_size r <=? blen (pf_mem s)
  then Ok (slice (pf_mem s) (r_off r) (r_size r))
  else UB.

(** pack_file.h:148-153 insert (offsets stay far below 2^64 because the data is
    in memory; no wrap modelled) *)
Definition pf_insert (s : pfile) (off : N) (d : bytes) : pfile * pack_record :=
  let r := Rec off (blen d) in
  let s' := pf_resize s (N.max (pf_size s) (r_off r + r_size r)) in
  (PFile (write_at (pf_mem s') off d) (pf_size s'), r).

(** pack_file.h:155 append *)
Definition pf_append (s : pfile) (d : bytes) : pfile * pack_record :=
  pf_insert s (pf_size s) d.

(** pack_file.h:140-146 move: memmove reads the whole source before writing.  A
    source outside the mapping is UB. *)
Definition pf_move (s : pfile) (off : N) (from : pack_record) : res (pfile * pack_record) :=
  let to := Rec off (r_size from) in
  let s' := pf_resize s (N.max (pf_size s) (r_off to + r_size to)) in
  if r_off from + r_size from <=? blen (pf_mem s') then
    Ok (PFile (write_at (pf_mem s') off (slice (pf_mem s') (r_off from) (r_size from)))
              (pf_size s'), to)
  else UB.

(** pack_file.h:114-120 destructor: 'a' (97) is appended if the vector is empty
    or its last byte is '\0'.  Result: the file content left on disk. *)
Definition pf_close (s : pfile) : bytes :=
  if (pf_size s =? 0) || (nth (N.to_nat (pf_size s - 1)) (pf_mem s) 0 =? 0)
  then pf_mem (fst (pf_append s [97]))
  else pf_mem s.

(** number of bytes before the trailing '\0's *)
Fixpoint trimmed_len (l : bytes) : nat :=
  match l with
  | [] => O
  | b :: l' => match trimmed_len l' with
               | O => if b =? 0 then O else 1%nat
               | n => S n
               end
  end.

(** pack_file.h:97-112 constructor on an existing file: mmap_vector_file (third
    party) drops trailing default ('\0') elements from its size. *)
Definition pf_open (disk : bytes) : pfile := PFile disk (N.of_nat (trimmed_len disk)).

(** The process stops without running the destructor: the shared mapping is
    what is on disk. *)
Definition pf_crash (s : pfile) : bytes := pf_mem s.

(** pack_file.h:75-83 pack_file_name: ".mdb" = 46,109,100,98; ".pck" = 46,112,99,107 *)
Definition pack_file_name (fname : bytes) : bytes :=
  if (4 <=? length fname)%nat && bytes_eqb (skipn (length fname - 4) fname) [46; 109; 100; 98]
  then firstn (length fname - 4) fname ++ [46; 112; 99; 107]
  else fname ++ [46; 112; 99; 107].

(** Operations of a handle's life, for statements over histories. *)
Inductive pf_op :=
| OAppend (d : bytes)
| OInsert (off : N) (d : bytes)
| OMove (off : N) (from : pack_record)
| OReopen.                              (* destructor, then constructor *)

Definition pf_step (s : pfile) (o : pf_op) : res (pfile * option pack_record) :=
  match o with
  | OAppend d => let '(s', r) := pf_append s d in Ok (s', Some r)
  | OInsert off d => let '(s', r) := pf_insert s off d in Ok (s', Some r)
  | OMove off from => do (s', r) <- pf_move s off from; Ok (s', Some r)
  | OReopen => Ok (pf_open (pf_close s), None)
  end.

Fixpoint pf_run (s : pfile) (os : list pf_op) : res pfile :=
  match os with
  | [] => Ok s
  | o :: os' => do (s', _) <- pf_step s o; pf_run s' os'
  end.
