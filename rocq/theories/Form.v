(** Model of how the form values of a request are made, r.FormValue in cmd/server/demo.go:114-116:
    net/http's ParseForm and net/url's ParseQuery (library code, from its source; multipart bodies are
    left out). *)
From Verif Require Export Route.
Open Scope Z_scope.

(** ** net/url *)
(** ishex and unhex *)
Definition unhex (b : byte) : option N :=
  let c := b2n b in
  (if (48 <=? c) && (c <=? 57) then Some (c - 48)
   else if (97 <=? c) && (c <=? 102) then Some (c - 97 + 10)
   else if (65 <=? c) && (c <=? 70) then Some (c - 65 + 10)
   else None)%N.
(** unescape in the mode encodeQueryComponent; None is an error. *)
Fixpoint query_unescape (s : bytes) : option bytes :=
  match s with
  | [] => Some []
  | b :: r =>
    if Byte.eqb b x25 then
      match r with
      | h :: l :: r' =>
        match unhex h, unhex l, query_unescape r' with
        | Some x, Some y, Some s' => Some (n2b (x * 16 + y) :: s')
        | _, _, _ => None
        end
      | _ => None
      end
    else match query_unescape r with
         | Some s' => Some ((if Byte.eqb b x2b then x20 else b) :: s')
         | None => None
         end
  end.
(** strings.Cut at a byte; without it the second part is empty. *)
Fixpoint cut_at (sep : byte) (s : bytes) : bytes * bytes :=
  match s with
  | [] => ([], [])
  | b :: r => if Byte.eqb b sep then ([], r) else let (x, y) := cut_at sep r in (b :: x, y)
  end.
(** The loop of parseQuery: the pairs in the order in which they are appended to the map.  A part that
    cannot be decoded is left out. *)
Fixpoint parse_query_loop (fuel : nat) (query : bytes) : res (list (bytes * bytes)) :=
  match fuel with
  | O => Diverge
  | S f =>
    match query with
    | [] => Ok []
    | _ =>
      let (key, query) := cut_at x26 query in
      let* l := parse_query_loop f query in
      if existsb (Byte.eqb x3b) key then Ok l
      else match key with
           | [] => Ok l
           | _ =>
             let (key, value) := cut_at x3d key in
             match query_unescape key, query_unescape value with
             | Some k, Some v => Ok ((k, v) :: l)
             | _, _ => Ok l
             end
           end
    end
  end.
Definition parse_query (query : bytes) : res (list (bytes * bytes)) := parse_query_loop (S (length query)) query.

(** ** net/http *)
(** parsePostForm: [urlencoded] says whether the body's type is application/x-www-form-urlencoded. *)
Definition max_form_size : N := 10485760.
Definition parse_post_form (urlencoded : bool) (body : bytes) : res (list (bytes * bytes)) :=
  if urlencoded then if (max_form_size <? N.of_nat (length body))%N then Ok [] else parse_query body
  else Ok [].
(** ParseForm: the values of the body come before those of the query. *)
Definition parse_form (method query : bytes) (urlencoded : bool) (body : bytes) : res (list (bytes * bytes)) :=
  let* p := if existsb (bytes_eqb method) [s2b "POST"; s2b "PUT"; s2b "PATCH"] then parse_post_form urlencoded body else Ok [] in
  let* q := parse_query query in
  Ok (p ++ q).
(** FormValue *)
Definition form_value (key : bytes) (form : list (bytes * bytes)) : bytes :=
  match find (fun kv => bytes_eqb (fst kv) key) form with Some kv => snd kv | None => [] end.
(** The request as the handlers see it. *)
Definition net_request (method path query : bytes) (urlencoded : bool) (body : bytes) : res http_request :=
  let* form := parse_form method query urlencoded body in
  Ok (HttpRequest method path path query (form_value (s2b "s") form) (form_value (s2b "r") form) (form_value (s2b "lattice") form) body).
