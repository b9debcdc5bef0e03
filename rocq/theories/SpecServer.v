(** Specification vocabulary for the HTTP server. *)
From Coq Require Import String Ascii.
From Coq Require Import List.
From Verif Require Import Base ModelTile ModelServer.
Import ListNotations.
Open Scope N_scope.

(** a string of decimal digits and its value *)
Inductive decimal : bytes -> N -> Prop :=
| dec_one c : 48 <= c <= 57 -> decimal [c] (c - 48)
| dec_more s c v : decimal s v -> 48 <= c <= 57 -> decimal (s ++ [c]) (v * 10 + (c - 48)).

(** the URL of a tile below any path: anything/z/x/y.mvt *)
Definition tile_url (prefix z x y : bytes) : bytes :=
  prefix ++ lit "/" ++ z ++ lit "/" ++ x ++ lit "/" ++ y ++ lit ".mvt".

Definition digit_string (s : bytes) : Prop := Forall (fun c => 48 <= c <= 57) s.
(** value of a digit string *)
Definition value_of (s : bytes) : N := fold_left (fun v c => v * 10 + (c - 48)) s 0.

(** ** percent encoding *)
Inductive hex_value : N -> N -> Prop :=
| hex_dec c : 48 <= c <= 57 -> hex_value c (c - 48)
| hex_upper c : 65 <= c <= 70 -> hex_value c (c - 65 + 10)
| hex_lower c : 97 <= c <= 102 -> hex_value c (c - 97 + 10).

(** [encodes e s]: [e] is an encoding of [s] *)
Inductive encodes : bytes -> bytes -> Prop :=
| enc_nil : encodes [] []
| enc_lit c e s : c <> 37 -> c <> 43 -> encodes e s -> encodes (c :: e) (c :: s)
| enc_plus e s : encodes e s -> encodes (43 :: e) (32 :: s)
| enc_pct a b va vb e s : hex_value a va -> hex_value b vb -> encodes e s ->
    encodes (37 :: a :: b :: e) (16 * va + vb :: s).

(** what the server makes of two characters behind a percent sign: a hexadecimal number that may start with a
    blank or a sign and may be followed by anything else; a negative number counts modulo 256 *)
Inductive escape : N -> N -> N -> Prop :=
| esc_two a b va vb : hex_value a va -> hex_value b vb -> escape a b (16 * va + vb)
| esc_one a b va : hex_value a va -> (forall v, ~ hex_value b v) -> ~ (a = 48 /\ (b = 88 \/ b = 120)) -> escape a b va
| esc_blank a b vb : a = 32 \/ 9 <= a <= 13 -> hex_value b vb -> escape a b vb
| esc_plus b vb : hex_value b vb -> escape 43 b vb
| esc_minus b vb v : hex_value b vb -> v < 256 -> (v + vb) mod 256 = 0 -> escape 45 b v.
Inductive decodes : bytes -> bytes -> Prop :=
| dcd_nil : decodes [] []
| dcd_lit c e s : c <> 37 -> c <> 43 -> decodes e s -> decodes (c :: e) (c :: s)
| dcd_plus e s : decodes e s -> decodes (43 :: e) (32 :: s)
| dcd_pct a b v e s : escape a b v -> decodes e s -> decodes (37 :: a :: b :: e) (v :: s).

(** ** what a request asks for *)
Inductive asks :=
| AskTile (t : tile)          (** .../z/x/y.mvt *)
| AskBadTile                  (** ends with .mvt, but is not the URL of a tile *)
| AskGlyphs (f : bytes)       (** /glyphs/f *)
| AskFile (f : bytes)         (** /f, or / for index.html *)
| AskNothing.

(** one line of text *)
Definition one_line (s : bytes) : Prop := ~ In 10 s /\ ~ In 13 s.

Definition glyphs_url (u f : bytes) : Prop := u = lit "/glyphs/" ++ f /\ f <> [] /\ one_line f.
Definition file_url (u f : bytes) : Prop := u = lit "/" ++ f /\ f <> [] /\ one_line f.

(** what the (decoded) path [u] of a request with target [target] asks for *)
Inductive asks_for (target u : bytes) : asks -> Prop :=
| asks_tile p z x y : u = p ++ z ++ lit "/" ++ x ++ lit "/" ++ y ++ lit ".mvt" ->
    (p = [] \/ exists q, p = q ++ [47] \/ p = q ++ [0]) ->
    digit_string z -> digit_string x -> digit_string y ->
    asks_for target u (AskTile (Tile (value_of x mod 2 ^ 32) (value_of y mod 2 ^ 32) (value_of z mod 2 ^ 32)))
| asks_bad p : u = p ++ lit ".mvt" ->
    (forall p' z x y, p = p' ++ z ++ lit "/" ++ x ++ lit "/" ++ y ->
       (p' = [] \/ exists q, p' = q ++ [47] \/ p' = q ++ [0]) -> ~ (digit_string z /\ digit_string x /\ digit_string y)) ->
    asks_for target u AskBadTile
| asks_glyphs f : (forall p, u <> p ++ lit ".mvt") -> glyphs_url u f -> asks_for target u (AskGlyphs f)
| asks_file f : (forall p, u <> p ++ lit ".mvt") -> (forall g, ~ glyphs_url u g) -> file_url u f ->
    asks_for target u (AskFile f)
| asks_index : (forall p, u <> p ++ lit ".mvt") -> (forall g, ~ glyphs_url u g) -> (forall g, ~ file_url u g) ->
    target = lit "/" -> asks_for target u (AskFile (lit "index.html"))
| asks_nothing : (forall p, u <> p ++ lit ".mvt") -> (forall g, ~ glyphs_url u g) -> (forall g, ~ file_url u g) ->
    target <> lit "/" -> asks_for target u AskNothing.

(** the content types by file name *)
Inductive type_of (f : bytes) : option bytes -> Prop :=
| type_html p : f = p ++ lit ".html" -> type_of f (Some (lit "text/html"))
| type_css p : f = p ++ lit ".css" -> type_of f (Some (lit "text/css"))
| type_js p : f = p ++ lit ".js" -> type_of f (Some (lit "text/javascript"))
| type_none : (forall p, f <> p ++ lit ".html") -> (forall p, f <> p ++ lit ".css") -> (forall p, f <> p ++ lit ".js") ->
    type_of f None.

(** the answer of the server to a request whose target decodes to [u] *)
Inductive answer (e : env) (q : request) : asks -> response -> Prop :=
| ans_bad : answer e q AskBadTile (empty_response 500)
| ans_undeflated t : (forall a b, rq_accept q <> a ++ lit "deflate" ++ b) -> answer e q (AskTile t) (empty_response 501)
| ans_tile t a b c : rq_accept q = a ++ lit "deflate" ++ b -> e_tile e t = Ok (Some c) ->
    answer e q (AskTile t) (Response 200 c true None)
| ans_no_tile t a b : rq_accept q = a ++ lit "deflate" ++ b -> e_tile e t = Ok None ->
    answer e q (AskTile t) (empty_response 204)
| ans_tile_error t a b : rq_accept q = a ++ lit "deflate" ++ b -> e_tile e t = Throw ->
    answer e q (AskTile t) (empty_response 500)
| ans_font f c : e_fonts e f = Some c -> answer e q (AskGlyphs f) (Response 200 c false None)
| ans_no_font f : e_fonts e f = None -> answer e q (AskGlyphs f) (empty_response 404)
| ans_file f c ty : e_dir e <> [] -> e_fs e (path_append (e_dir e) f) = FFile c -> type_of f ty ->
    answer e q (AskFile f) (Response 200 c false ty)
| ans_dir f : e_dir e <> [] -> e_fs e (path_append (e_dir e) f) = FDir -> answer e q (AskFile f) (empty_response 500)
| ans_res f c ty : (e_dir e = [] \/ e_fs e (path_append (e_dir e) f) = FNone) -> e_res e f = Some c -> type_of f ty ->
    answer e q (AskFile f) (Response 200 c false ty)
| ans_no_file f : (e_dir e = [] \/ e_fs e (path_append (e_dir e) f) = FNone) -> e_res e f = None ->
    answer e q (AskFile f) (empty_response 404)
| ans_nothing : answer e q AskNothing (empty_response 404).

(** ** the resource directory *)
(** components of a relative path *)
Definition no_dotdot (f : bytes) : Prop :=
  forall a b, f <> a ++ lit ".." ++ b \/ (a <> [] /\ ~ exists a', a = a' ++ [47]) \/ (b <> [] /\ ~ exists b', b = 47 :: b').
Definition below (dir p : bytes) : Prop :=
  exists rel, no_dotdot rel /\ (forall r, rel <> 47 :: r) /\ (p = dir ++ rel \/ p = dir ++ 47 :: rel).
