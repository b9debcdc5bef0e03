(** C42, C43, C51: URLs and requests. *)
From Coq Require Import String Ascii.
From Coq Require Import List.
From Verif Require Import Base BaseProof ModelTile ModelServer SpecServer ProofServer.
Import ListNotations.
Open Scope N_scope.

(** C42: below every path the URL /z/x/y.mvt is the tile x, y on zoom level z *)
Theorem c42_tile_url : forall prefix zs xs ys z x y,
  decimal zs z -> decimal xs x -> decimal ys y -> z < 2 ^ 32 -> x < 2 ^ 32 -> y < 2 ^ 32 ->
  parse_tile_url (tile_url prefix zs xs ys) = Ok (Some (Tile x y z)).
Proof.
  intros prefix zs xs ys z x y Hz Hx Hy Lz Lx Ly.
  apply decimal_spec in Hz as [Dz Vz], Hx as [Dx Vx], Hy as [Dy Vy].
  rewrite (parse_of_path _ (prefix ++ lit "/") zs xs ys).
  - rewrite Vz, Vx, Vy, !N.mod_small by assumption. reflexivity.
  - split; [unfold tile_url; now rewrite <- !app_assoc|]. split; [|auto]. right. exists prefix. now left.
Qed.
Print Assumptions c42_tile_url.
Example c42_tile_url_example :
  decimal (lit "14") 14 /\ decimal (lit "8580") 8580 /\ decimal (lit "5612") 5612 /\
  parse_tile_url (tile_url (lit "/tiles") (lit "14") (lit "8580") (lit "5612")) = Ok (Some (Tile 8580 5612 14)).
Proof.
  assert (D : forall s c v, decimal s v -> 48 <= c <= 57 -> decimal (s ++ [c]) (v * 10 + (c - 48))) by (intros; now constructor).
  split; [|split; [|split; [|vm_compute; reflexivity]]].
  - refine (D [49] 52 1 _ _); [refine (dec_one 49 _); lia|lia].
  - refine (D [56;53;56] 48 858 _ _); [|lia]. refine (D [56;53] 56 85 _ _); [|lia]. refine (D [56] 53 8 _ _); [refine (dec_one 56 _); lia|lia].
  - refine (D [53;54;49] 50 561 _ _); [|lia]. refine (D [53;54] 49 56 _ _); [|lia]. refine (D [53] 54 5 _ _); [refine (dec_one 53 _); lia|lia].
Qed.

(** C42: a path is not taken for a tile exactly when it lacks the suffix *)
Theorem c42_not_a_tile : forall u, parse_tile_url u = Ok None <-> (forall p, u <> p ++ lit ".mvt").
Proof.
  intros u. destruct (parse_cases u) as [(p & z & x & y & H & E)|[((p & U) & _ & E)|(N' & E)]]; rewrite E.
  - split; [discriminate|]. intros H'. destruct (mvt_of_path _ _ _ _ _ H) as [q Eq]. now apply H' in Eq.
  - split; [discriminate|]. intros H'. now apply H' in U.
  - tauto.
Qed.
Print Assumptions c42_not_a_tile.

(** C42: a tile is returned only for three digit strings before the suffix, and
    it is the tile with their values modulo 2^32; everything else throws *)
Theorem c42_only_tiles : forall u t, parse_tile_url u = Ok (Some t) ->
  exists p z x y, u = p ++ z ++ lit "/" ++ x ++ lit "/" ++ y ++ lit ".mvt" /\
    digit_string z /\ digit_string x /\ digit_string y /\
    t = Tile (value_of x mod 2 ^ 32) (value_of y mod 2 ^ 32) (value_of z mod 2 ^ 32).
Proof.
  intros u t E. destruct (parse_cases u) as [(p & z & x & y & (U & _ & Dz & Dx & Dy) & E')|[(_ & _ & E')|(_ & E')]];
    rewrite E' in E; try discriminate. apply Ok_inj in E. injection E as <-. exists p, z, x, y. auto.
Qed.
Print Assumptions c42_only_tiles.
Theorem c42_defined : forall u, (exists r, parse_tile_url u = Ok r) \/ parse_tile_url u = Throw.
Proof.
  intros u. destruct (parse_cases u) as [(p & z & x & y & H & E)|[(_ & _ & E)|(_ & E)]]; rewrite E; eauto.
Qed.
Print Assumptions c42_defined.

(** C42 (finding): numbers are neither required nor checked for their range *)
Theorem c42_numbers_refuted : ~ (forall u t, parse_tile_url u = Ok (Some t) ->
  exists p zs xs ys, u = tile_url p zs xs ys /\ decimal zs (tz t) /\ decimal xs (tx t) /\ decimal ys (ty t)).
Proof.
  intros H. assert (E : parse_tile_url (lit "///.mvt") = Ok (Some (Tile 0 0 0))) by (vm_compute; reflexivity).
  destruct (H _ _ E) as (p & zs & xs & ys & U & Dz & Dx & Dy).
  assert (L : forall s v, decimal s v -> (1 <= length s)%nat).
  { intros s v [c _|s' c v' _ _]; [cbn; lia|]. rewrite app_length. cbn [length]. lia. }
  apply L in Dz, Dx, Dy. apply (f_equal (@length N)) in U. unfold tile_url in U. rewrite !app_length in U. cbn in U. lia.
Qed.
Print Assumptions c42_numbers_refuted.
Example c42_range_example :
  parse_tile_url (lit "/0/0/4294967297.mvt") = Ok (Some (Tile 0 1 0)) /\
  parse_tile_url (lit "///.mvt") = Ok (Some (Tile 0 0 0)) /\
  parse_tile_url (lit "/1/2/-3.mvt") = Throw /\ parse_tile_url (lit "2/3.mvt") = Throw /\
  parse_tile_url (lit "/1/2/3.mvt/") = Ok None.
Proof. vm_compute. repeat split; reflexivity. Qed.

(** C43: decoding is exact for percent encoded strings *)
Theorem c43_decode : forall e s, encodes e s -> url_decode e = Ok s.
Proof. exact decode_spec. Qed.
Print Assumptions c43_decode.
Example c43_decode_example : encodes (lit "/a%2Fb+%e4") (lit "/a/b " ++ [228]).
Proof.
  vm_compute. apply enc_lit; [discriminate..|]. apply enc_lit; [discriminate..|].
  change 47 with (16 * 2 + (70 - 65 + 10)). apply enc_pct; [refine (hex_dec 50 _); lia|refine (hex_upper 70 _); lia|].
  apply enc_lit; [discriminate..|]. apply enc_plus.
  change 228 with (16 * (101 - 97 + 10) + (52 - 48)). apply enc_pct; [refine (hex_lower 101 _); lia|refine (hex_dec 52 _); lia|]. apply enc_nil.
Qed.

(** C43: a truncated escape is refused, and so is one that starts with anything
    but a hexadecimal digit, a sign or white space *)
Theorem c43_truncated : forall e s tail, encodes e s -> (length tail < 2)%nat -> url_decode (e ++ 37 :: tail) = Throw.
Proof.
  intros e s tail H L. eapply encodes_prefix_throw; eauto. cbn [url_decode]. change (37 =? 37) with true. cbv iota.
  destruct tail as [|a [|b r]]; [reflexivity|reflexivity|cbn in L; lia].
Qed.
Print Assumptions c43_truncated.
Theorem c43_no_hex_partial : forall e s a b r, encodes e s ->
  (forall v, ~ hex_value a v) -> a <> 43 -> a <> 45 -> a <> 32 -> ~ 9 <= a <= 13 ->
  url_decode (e ++ 37 :: a :: b :: r) = Throw.
Proof.
  intros e s a b r H Ha N1 N2 N3 N4. eapply encodes_prefix_throw; eauto. cbn [url_decode]. change (37 =? 37) with true. cbv iota.
  rewrite read_hex2_bad; auto. unfold isspace. lia.
Qed.
Print Assumptions c43_no_hex_partial.
(** C43 (finding): not every escape without two hexadecimal digits is refused *)
Theorem c43_no_hex_refuted : ~ (forall a b r, ~ (exists va vb, hex_value a va /\ hex_value b vb) ->
  url_decode (37 :: a :: b :: r) = Throw).
Proof.
  intros H. specialize (H 52 103 []). cbn in H. discriminate H. intros (va & vb & _ & B). inversion B; lia.
Qed.
Print Assumptions c43_no_hex_refuted.
Theorem c43_decode_defined : forall e, (exists s, url_decode e = Ok s) \/ url_decode e = Throw.
Proof. exact decode_total. Qed.
Print Assumptions c43_decode_defined.

(** C43: exactly what is decoded, sloppy escapes included *)
Theorem c43_decode_exact : forall e s, url_decode e = Ok s <-> decodes e s.
Proof. exact decode_exact. Qed.
Print Assumptions c43_decode_exact.
Example c43_exact_example : url_decode (lit "%-5% 7%4g") = Ok [251; 7; 4] /\ url_decode (lit "%0x") = Throw.
Proof. split; vm_compute; reflexivity. Qed.

(** C43: methods other than GET and HEAD *)
Theorem c43_methods : forall e target accept,
  respond e (Request Options target accept) = Ok (empty_response 204) /\
  respond e (Request OtherMethod target accept) = Ok (empty_response 405).
Proof. intros. split; reflexivity. Qed.
Print Assumptions c43_methods.

(** C43: every GET or HEAD request whose target decodes gets the one answer that
    the kind of its path determines *)
Theorem c43_answer : forall e q u, (rq_method q = Get \/ rq_method q = Head) -> url_decode (rq_target q) = Ok u ->
  (forall t, e_tile e t <> UB /\ e_tile e t <> Fuel) ->
  exists r, respond e q = Ok r /\
    exists a, asks_for (rq_target q) u a /\ answer e q a r /\
      forall a' r', asks_for (rq_target q) u a' -> answer e q a' r' -> r' = r.
Proof.
  intros e q u M D NU. destruct (serve_spec e q u M D NU) as (a & r & A & B & C).
  exists r. split; [exact C|]. exists a. split; [exact A|]. split; [exact B|].
  intros a' r' A' B'. rewrite (asks_fun _ _ _ _ A' A) in B'. exact (answer_fun _ _ _ _ _ B' B).
Qed.
Print Assumptions c43_answer.
(** C43: and one whose target does not decode is answered with an error *)
Theorem c43_undecodable : forall e q, (rq_method q = Get \/ rq_method q = Head) -> url_decode (rq_target q) = Throw ->
  respond e q = Ok (empty_response 500).
Proof.
  intros e q M D. unfold respond, serve, maybe_serve_tile. rewrite D. destruct M as [-> | ->]; reflexivity.
Qed.
Print Assumptions c43_undecodable.
(** C43 (finding): a HEAD request is answered with the body of the GET request *)
Theorem c43_head_has_body : forall e target accept,
  respond e (Request Head target accept) = respond e (Request Get target accept).
Proof. reflexivity. Qed.
Print Assumptions c43_head_has_body.
Example c43_answer_example :
  let e := Env (fun t => if tz t <=? 20 then (if tx t =? 1 then Ok (Some [1; 2; 3]) else Ok None) else Throw)
               (fun f => None) (fun f => if bytes_eqb f (lit "index.html") then Some [60] else None)
               (lit "client") (fun p => if bytes_eqb p (lit "client/a.css") then FFile [7] else FNone) in
  map (fun p => respond e (Request Get (lit p) (lit "gzip, deflate")))
    ["/3/1/5.mvt"; "/3/2/5.mvt"; "/21/2/5.mvt"; "/x/2/5.mvt"; "/glyphs/a"; "/a.css"; "/"; "/b"; "/%5"]%string
  = [Ok (Response 200 [1;2;3] true None); Ok (empty_response 204); Ok (empty_response 500); Ok (empty_response 500);
     Ok (empty_response 404); Ok (Response 200 [7] false (Some (lit "text/css")));
     Ok (Response 200 [60] false (Some (lit "text/html"))); Ok (empty_response 404); Ok (empty_response 500)].
Proof. vm_compute. reflexivity. Qed.

(** C51: files are served from the resource directory only: as long as the path
    has no ".." component and does not begin with two slashes, the answer does
    not depend on files outside *)
Theorem c51_static_files_partial : forall e fs' q u,
  (forall p, below (e_dir e) p -> fs' p = e_fs e p) -> url_decode (rq_target q) = Ok u ->
  (forall f, u = 47 :: f -> no_dotdot f /\ forall r, f <> 47 :: r) ->
  respond (Env (e_tile e) (e_fonts e) (e_res e) (e_dir e) fs') q = respond e q.
Proof. exact respond_below. Qed.
Print Assumptions c51_static_files_partial.
(** C51 (finding): other paths read any file of the machine *)
Theorem c51_static_files_refuted : ~ (forall e fs' q,
  (forall p, below (e_dir e) p -> fs' p = e_fs e p) ->
  respond (Env (e_tile e) (e_fonts e) (e_res e) (e_dir e) fs') q = respond e q).
Proof.
  intros H.
  specialize (H (Env (fun _ => Ok None) (fun _ => None) (fun _ => None) (lit "client") (fun _ => FNone))
    (fun p => if bytes_eqb p (lit "/etc/passwd") then FFile [114] else FNone) (Request Get (lit "//etc/passwd") [])).
  cbn [e_dir e_fs e_tile e_fonts e_res] in H.
  assert (C : forall p, below (lit "client") p -> (if bytes_eqb p (lit "/etc/passwd") then FFile [114] else FNone) = FNone).
  { intros p (rel & _ & _ & [-> | ->]); cbn [lit list_ascii_of_string map app]; destruct (bytes_eqb _ _) eqn:E;
      try reflexivity; apply bytes_eqb_eq in E; discriminate E. }
  specialize (H C). vm_compute in H. discriminate H.
Qed.
Print Assumptions c51_static_files_refuted.
Example c51_dotdot_example :
  respond (Env (fun _ => Ok None) (fun _ => None) (fun _ => None) (lit "client")
     (fun p => if bytes_eqb p (lit "client/../../secret") then FFile [115] else FNone)) (Request Get (lit "/../../secret") [])
  = Ok (Response 200 [115] false None) /\
  no_dotdot (lit "lib/map.js").
Proof.
  split; [vm_compute; reflexivity|]. intros a b. left. intros E.
  assert (contains_str (lit "..") (lit "lib/map.js") = true) by (apply contains_spec; now exists a, b). discriminate.
Qed.
