(** Feature packs without index: include/tiles/db/feature_pack.h, src/db/feature_pack.cc *)
From Verif Require Import Base ModelTile ModelCodec.
Open Scope N_scope.

(** ** Checksum *)
(** boost::crc_32_type (third party): reflected CRC with polynomial 0x04C11DB7
    (reversed 0xEDB88320), initial value and final xor 0xFFFFFFFF, one step per
    bit, least significant bit of each byte first. *)
Definition crc_poly : N := 0xEDB88320.
Definition crc_ones : N := 0xFFFFFFFF.
Definition crc_step (s : N) (b : bool) : N :=
  let s' := N.shiftr s 1 in
  if xorb (N.testbit s 0) b then N.lxor s' crc_poly else s'.
Definition crc_run (s : N) (bits : list bool) : N := fold_left crc_step bits s.
Definition byte_bits (b : N) : list bool := map (fun i => N.testbit b i) [0; 1; 2; 3; 4; 5; 6; 7].
Definition bits_of (bs : bytes) : list bool := flat_map byte_bits bs.
Definition crc32 (bs : bytes) : N := N.lxor (crc_run crc_ones (bits_of bs)) crc_ones.

(** src/db/feature_pack.cc:32-36 feature_packer::finish *)
Definition pack_finish (buf : bytes) : bytes := buf ++ le_bytes 4 (crc32 buf).

(** src/db/feature_pack.cc:38-46 feature_pack_valid *)
Definition feature_pack_valid (bs : bytes) : bool :=
  if (length bs <? 4)%nat then false
  else
    let n := (length bs - 4)%nat in
    le_val (skipn n bs) =? crc32 (firstn n bs).

(** ** Writing *)
(** feature_pack.h:71-83 finish_header with the segment ids in map order; the
    segment offsets are 0 until update_segment_offset *)
Definition pack_header (segments : list N) (count : N) : res bytes :=
  do _ <- verify (count <? 2 ^ 32);
  Ok (le_bytes 4 count ++ [N.of_nat (length segments)]
      ++ flat_map (fun id => id :: le_bytes 4 0) segments).

(** feature_pack.h:99-103 append_feature *)
Definition append_feature (buf f : bytes) : res bytes :=
  do _ <- verify (32 <=? blen f);
  Ok (buf ++ varint_enc (blen f) ++ f).

(** feature_pack.h:105-108 *)
Definition append_span_end (buf : bytes) : bytes := buf ++ varint_enc 0.

(** feature_pack.h:90-97 append_features: all features of a span, then the null
    feature *)
Fixpoint append_each (buf : bytes) (fs : list bytes) : res bytes :=
  match fs with
  | [] => Ok buf
  | f :: fs' => do buf' <- append_feature buf f; append_each buf' fs'
  end.
Definition append_features (buf : bytes) (fs : list bytes) : res bytes :=
  do buf' <- append_each buf fs;
  Ok (append_span_end buf').

(** feature_pack.cc:48-54 pack_features (quick packing) *)
Definition pack_features (fs : list bytes) : res bytes :=
  do h <- pack_header [] (N.of_nat (length fs));
  do b <- append_features h fs;
  Ok (pack_finish b).

(** ** Reading *)
(** protozero::decode_varint(&ptr, end) followed by string_view{ptr, size} and
    ptr += size: leaving the buffer is undefined behaviour *)
Definition take_feature (size : N) (r : bytes) : res (bytes * bytes) :=
  if size <=? blen r then Ok (firstn (N.to_nat size) r, skipn (N.to_nat size) r) else UB.

(** feature_pack.h:149-153: skip null features until a size is found *)
Fixpoint next_size (fuel : nat) (r : bytes) : res (N * bytes) :=
  match fuel with
  | O => Fuel
  | S f => do (size, r') <- varint_dec r; if size =? 0 then next_size f r' else Ok (size, r')
  end.

(** feature_pack.h:148-156: counting loop; every element takes at least one byte *)
Fixpoint unpack_loop (count : nat) (r : bytes) : res (list bytes * bytes) :=
  match count with
  | O => Ok ([], r)
  | S c =>
      do (size, r1) <- next_size (S (length r)) r;
      do (f, r2) <- take_feature size r1;
      do (fs, r3) <- unpack_loop c r2;
      Ok (f :: fs, r3)
  end.

(** feature_pack.h:140-158 unpack_features(string, fn): the strings handed to fn,
    and the rest of the buffer behind the last feature.  (A segment table that
    is longer than the buffer is a pointer past the end: UB.) *)
Definition unpack_features (bs : bytes) : res (list bytes * bytes) :=
  do _ <- verify (5 <=? blen bs);
  let count := le_val (firstn 4 bs) in
  let segs := nth 4 bs 0 in
  let start := (segs + 1) * 5 in
  if start <=? blen bs then unpack_loop (N.to_nat count) (skipn (N.to_nat start) bs) else UB.
