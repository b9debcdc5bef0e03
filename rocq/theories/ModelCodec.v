(** Integer and protobuf wire encodings (third party: protozero), used by the
    feature, pack and tile writers. *)
From Verif Require Import Base ModelTile.
Open Scope N_scope.

(** protozero::write_varint (varint.hpp, third party): 7 bits per byte, least
    significant group first.  Ten bytes hold every 64-bit value. *)
Fixpoint varint_enc_f (fuel : nat) (v : N) : bytes :=
  match fuel with
  | O => []
  | S f => if v <? 128 then [v] else (v mod 128 + 128) :: varint_enc_f f (v / 128)
  end.
Definition varint_enc (v : N) : bytes := varint_enc_f 10 v.

(** protozero::decode_varint (varint.hpp, third party): throws
    end_of_buffer_exception / varint_too_long_exception; the 10th byte only
    contributes its lowest bit. *)
Fixpoint varint_dec_f (fuel : nat) (shift acc : N) (bs : bytes) : res (N * bytes) :=
  match fuel with
  | O => Throw
  | S f =>
      match bs with
      | [] => Throw
      | b :: r =>
          let acc' := N.lor acc (shl64 (N.land b 127) shift) in
          if b <? 128 then Ok (acc', r) else varint_dec_f f (shift + 7) acc' r
      end
  end.
Definition varint_dec (bs : bytes) : res (N * bytes) := varint_dec_f 10 0 0 bs.

(** int64_t / uint64_t *)
Definition min64 : Z := (- 2 ^ 63)%Z.
Definition max64 : Z := (2 ^ 63 - 1)%Z.
Definition int64_ok (z : Z) : bool := ((min64 <=? z) && (z <=? max64))%Z.
Definition to_u64 (z : Z) : N := Z.to_N (z mod 2 ^ 64)%Z.
Definition to_i64 (n : N) : Z :=
  let m := Z.of_N (n mod 2 ^ 64) in if (m <? 2 ^ 63)%Z then m else (m - 2 ^ 64)%Z.
Definition to_u32 (z : Z) : N := Z.to_N (z mod 2 ^ 32)%Z.

(** signed addition/subtraction: overflow is undefined behaviour *)
Definition add64 (a b : Z) : res Z := if int64_ok (a + b)%Z then Ok (a + b)%Z else UB.
Definition sub64 (a b : Z) : res Z := if int64_ok (a - b)%Z then Ok (a - b)%Z else UB.

(** protozero::encode_zigzag64 / decode_zigzag64 (third party) *)
Definition zigzag (z : Z) : N := if (0 <=? z)%Z then Z.to_N (2 * z)%Z else Z.to_N (- 2 * z - 1)%Z.
Definition unzigzag (n : N) : Z :=
  if N.even n then Z.of_N (n / 2) else (- Z.of_N ((n + 1) / 2))%Z.

(** wire types *)
Definition WT_VARINT : N := 0.
Definition WT_I64 : N := 1.
Definition WT_LEN : N := 2.
Definition WT_I32 : N := 5.

(** protozero::pbf_writer::add_field, add_varint, add_length_varint (third party) *)
Definition field_key (tag wt : N) : bytes := varint_enc (tag * 8 + wt).
Definition field_varint (tag v : N) : bytes := field_key tag WT_VARINT ++ varint_enc v.
Definition field_bytes (tag : N) (d : bytes) : bytes :=
  field_key tag WT_LEN ++ varint_enc (blen d) ++ d.
Definition field_double (tag : N) (d : bytes) : bytes := field_key tag WT_I64 ++ d.

(** packed fields: nothing at all is written for an empty sequence
    (pbf_writer rolls the field back) *)
Definition field_packed_u64 (tag : N) (vs : list N) : bytes :=
  match vs with [] => [] | _ => field_bytes tag (flat_map varint_enc vs) end.
Definition packed_sint (vs : list Z) : bytes := flat_map (fun z => varint_enc (zigzag z)) vs.
Definition field_packed_sint64 (tag : N) (vs : list Z) : bytes :=
  match vs with [] => [] | _ => field_bytes tag (packed_sint vs) end.

(** protozero::pbf_reader::next (third party): tag, wire type and remaining
    bytes of the next field; None at the end of the message. *)
Definition next_field (bs : bytes) : res (option (N * N * bytes)) :=
  match bs with
  | [] => Ok None
  | _ =>
      do (v, r) <- varint_dec bs;
      let v := v mod 2 ^ 32 in
      let tag := v / 8 in
      let wt := v mod 8 in
      do _ <- verify (negb ((tag =? 0) || ((19000 <=? tag) && (tag <=? 19999))));
      do _ <- verify ((wt =? WT_VARINT) || (wt =? WT_I64) || (wt =? WT_LEN) || (wt =? WT_I32));
      Ok (Some (tag, wt, r))
  end.

(** pbf_reader::get_view / get_bytes / get_packed_*: length-delimited payload.
    (The wire type is only checked by an assertion in the library; a mismatch is
    modelled as Throw.) *)
Definition get_len (wt : N) (bs : bytes) : res (bytes * bytes) :=
  do _ <- verify (wt =? WT_LEN);
  do (n, r) <- varint_dec bs;
  let n := n mod 2 ^ 32 in
  do _ <- verify (n <=? blen r);
  Ok (firstn (N.to_nat n) r, skipn (N.to_nat n) r).

Definition get_varint (wt : N) (bs : bytes) : res (N * bytes) :=
  do _ <- verify (wt =? WT_VARINT);
  varint_dec bs.

(** pbf_reader::skip (third party) *)
Definition skip_field (wt : N) (bs : bytes) : res bytes :=
  if wt =? WT_VARINT then do (_, r) <- varint_dec bs; Ok r
  else if wt =? WT_I64 then do _ <- verify (8 <=? blen bs); Ok (skipn 8 bs)
  else if wt =? WT_LEN then do (_, r) <- get_len wt bs; Ok r
  else do _ <- verify (4 <=? blen bs); Ok (skipn 4 bs).

(** Reading one element of a packed sint64 range: dereference and increment of
    const_sint64_iterator. *)
Definition next_sint (bs : bytes) : res (Z * bytes) :=
  do (v, r) <- varint_dec bs; Ok (unzigzag v, r).
