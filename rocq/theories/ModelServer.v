(** The HTTP server: include/tiles/parse_tile_url.h, src/server.cc and the
    regular expressions of src/util.cc it uses. *)
From Coq Require Import String Ascii.
From Coq Require Import List.
From Verif Require Import Base ModelTile.
Import ListNotations.
Open Scope N_scope.

(** string literals of the C++ code as byte strings *)
Definition lit (s : string) : bytes := map N_of_ascii (list_ascii_of_string s).

(** std::string::starts_with, std::string_view::find (third party), boost ends_with *)
Fixpoint starts_with (p s : bytes) : bool :=
  match p, s with
  | [], _ => true
  | a :: p', b :: s' => (a =? b) && starts_with p' s'
  | _, [] => false
  end.
Definition ends_with (p s : bytes) : bool := starts_with (rev p) (rev s).
Fixpoint contains_str (p s : bytes) : bool :=
  starts_with p s || match s with [] => false | _ :: s' => contains_str p s' end.

(** url.c_str() + 4 is read as a C string: up to the first NUL byte *)
Fixpoint c_string (s : bytes) : bytes :=
  match s with
  | [] => []
  | c :: s' => if c =? 0 then [] else c :: c_string s'
  end.
(** utl::split<'/'> (third party): the tokens between slashes; a token that is
    not there is invalid *)
Fixpoint split_slash (s : bytes) : list bytes :=
  match s with
  | [] => [[]]
  | c :: s' =>
      match split_slash s' with
      | t :: r => if c =? 47 then [] :: t :: r else (c :: t) :: r
      | [] => [[]]
      end
  end.
(** std::isdigit; for bytes above 127 (negative char) its result is not defined
    by the C standard, here as in glibc: false *)
Definition isdigit (c : N) : bool := (48 <=? c) && (c <=? 57).
(** utl::parse<uint32_t> (third party) of digits: decimal value modulo 2^32 *)
Definition parse_u32 (s : bytes) : N := fold_left (fun v c => (v * 10 + (c - 48)) mod 2 ^ 32) s 0.

(** include/tiles/parse_tile_url.h:14-42 *)
Definition parse_tile_url (url : bytes) : res (option tile) :=
  let url := rev url in
  if negb (starts_with (lit "tvm.") url) then Ok None
  else
    match split_slash (c_string (skipn 4 url)) with
    | z_rev :: y_rev :: x_rev :: _ =>
        do _ <- verify (forallb isdigit z_rev);
        do _ <- verify (forallb isdigit y_rev);
        do _ <- verify (forallb isdigit x_rev);
        let x := parse_u32 (rev x_rev) in
        let y := parse_u32 (rev y_rev) in
        let z := parse_u32 (rev z_rev) in
        Ok (Some (Tile y z x))
    | _ => Throw
    end.

(** ** src/server.cc:43-62 url_decode *)

Definition hex_digit (c : N) : option N :=
  if (48 <=? c) && (c <=? 57) then Some (c - 48)
  else if (65 <=? c) && (c <=? 70) then Some (c - 55)
  else if (97 <=? c) && (c <=? 102) then Some (c - 87)
  else None.
(** std::isspace in the C locale *)
Definition isspace (c : N) : bool := (c =? 32) || ((9 <=? c) && (c <=? 13)).

(** std::istringstream{two characters} >> std::hex >> value (libstdc++), cast
    to char: leading white space is skipped, a sign is taken, reading stops at
    the first character that is no hexadecimal digit, a prefix 0x is consumed;
    at least one digit is needed. *)
Definition read_hex2 (a b : N) : option N :=
  if isspace a then hex_digit b
  else if a =? 43 then hex_digit b
  else if a =? 45 then option_map (fun v => (256 - v) mod 256) (hex_digit b)
  else
    match hex_digit a with
    | None => None
    | Some va =>
        match hex_digit b with
        | Some vb => Some (16 * va + vb)
        | None => if (a =? 48) && ((b =? 120) || (b =? 88)) then None else Some va
        end
    end.

(** src/server.cc:47-60 *)
Fixpoint url_decode (s : bytes) : res bytes :=
  match s with
  | [] => Ok []
  | c :: s' =>
      if c =? 37 then
        match s' with
        | a :: b :: r =>
            match read_hex2 a b with
            | Some v => do o <- url_decode r; Ok (v :: o)
            | None => Throw
            end
        | _ => Throw
        end
      else if c =? 43 then do o <- url_decode s'; Ok (32 :: o)
      else do o <- url_decode s'; Ok (c :: o)
  end.

(** ** src/server.cc:187-309 *)

Inductive http_method := Get | Head | Options | OtherMethod.
Record request := Request { rq_method : http_method; rq_target : bytes; rq_accept : bytes }.
(** status, body, content-encoding: deflate, content-type.  (The access control
    headers, set for every response, and the content length, which is the length
    of the body, are left out.) *)
Record response := Response { rs_status : N; rs_body : bytes; rs_deflate : bool; rs_type : option bytes }.

(** What is at a path of the file system. *)
Inductive fentry := FNone | FDir | FFile (content : bytes).

(** What the server answers from: the tile lookup (get_tile.h), the compiled-in
    fonts and client files (None: std::out_of_range), the resource directory and
    the file system. *)
Record env := Env {
  e_tile : tile -> res (option bytes);
  e_fonts : bytes -> option bytes;
  e_res : bytes -> option bytes;
  e_dir : bytes;
  e_fs : bytes -> fentry }.

Definition empty_response (status : N) : response := Response status [] false None.

(** src/util.cc:30-41 regex_matcher::match for "^\/glyphs/(.+)$" and "^\/(.+)$":
    std::regex_match; '.' matches everything but line feed and carriage return *)
Definition match_dots (s : bytes) : option bytes :=
  match s with
  | [] => None
  | _ => if forallb (fun c => negb ((c =? 10) || (c =? 13))) s then Some s else None
  end.
Definition match_prefix (p s : bytes) : option bytes :=
  if starts_with p s then match_dots (skipn (length p) s) else None.

(** std::filesystem::path::operator/ on POSIX: an absolute right side replaces
    the left one *)
Definition path_append (p q : bytes) : bytes :=
  match q with
  | 47 :: _ => q
  | _ => match rev p with
         | [] => q
         | 47 :: _ => p ++ q
         | _ => p ++ 47 :: q
         end
  end.

(** src/server.cc:187-218 maybe_serve_tile; None is "return false" *)
Definition maybe_serve_tile (e : env) (q : request) : res (option response) :=
  do decoded <- url_decode (rq_target q);
  do m <- parse_tile_url decoded;
  match m with
  | None => Ok None
  | Some t =>
      if negb (contains_str (lit "deflate") (rq_accept q)) then Ok (Some (empty_response 501))
      else
        do r <- e_tile e t;
        match r with
        | Some b => Ok (Some (Response 200 b true None))
        | None => Ok (Some (empty_response 204))
        end
  end.

(** src/server.cc:220-239 maybe_serve_glyphs *)
Definition maybe_serve_glyphs (e : env) (q : request) : res (option response) :=
  do decoded <- url_decode (rq_target q);
  match match_prefix (lit "/glyphs/") decoded with
  | None => Ok None
  | Some f =>
      match e_fonts e f with
      | Some b => Ok (Some (Response 200 b false None))
      | None => Ok (Some (empty_response 404))
      end
  end.

(** src/server.cc:277-283 *)
Definition content_type (fname : bytes) : option bytes :=
  if ends_with (lit ".html") fname then Some (lit "text/html")
  else if ends_with (lit ".css") fname then Some (lit "text/css")
  else if ends_with (lit ".js") fname then Some (lit "text/javascript")
  else None.

(** src/server.cc:241-289 maybe_serve_file; utl::mmap_reader throws for a
    directory *)
Definition maybe_serve_file (e : env) (q : request) : res (option response) :=
  do decoded <- url_decode (rq_target q);
  let m := match_prefix (lit "/") decoded in
  match m, bytes_eqb (rq_target q) (lit "/") with
  | None, false => Ok None
  | _, _ =>
      let fname := match m with Some f => f | None => lit "index.html" end in
      do found <-
        match e_dir e with
        | [] => Ok None
        | _ => match e_fs e (path_append (e_dir e) fname) with
               | FFile b => Ok (Some b)
               | FDir => Throw
               | FNone => Ok None
               end
        end;
      let found := match found with Some b => Some b | None => e_res e fname end in
      match found with
      | Some b => Ok (Some (Response 200 b false (content_type fname)))
      | None => Ok (Some (empty_response 404))
      end
  end.

(** src/server.cc:291-309, the callback *)
Definition serve (e : env) (q : request) : res response :=
  match rq_method q with
  | Options => Ok (empty_response 204)
  | OtherMethod => Ok (empty_response 405)
  | _ =>
      do a <- maybe_serve_tile e q;
      match a with
      | Some r => Ok r
      | None =>
          do b <- maybe_serve_glyphs e q;
          match b with
          | Some r => Ok r
          | None =>
              do c <- maybe_serve_file e q;
              match c with
              | Some r => Ok r
              | None => Ok (empty_response 404)
              end
          end
      end
  end.

(** src/server.cc:68-93 http_connection::start: exceptions become status 500.
    (No handler has set a body or header before it throws.) *)
Definition respond (e : env) (q : request) : res response :=
  match serve e q with
  | Throw => Ok (empty_response 500)
  | r => r
  end.
