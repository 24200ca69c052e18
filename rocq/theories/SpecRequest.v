(** What a request to the server asks for, and the answer it is due: independent of net/url and of
    the handlers.  The pages are described by [SpecPage], bodies of the endpoint by [SpecDecode]. *)
From Verif Require Export SpecRoute SpecPage SpecDecode.
From Verif Require Import SpecForm.
Open Scope Z_scope.

(** ** Form values: application/x-www-form-urlencoded *)
(** A text and what it means *)
Inductive means : bytes -> bytes -> Prop :=
| me_end : means [] []
| me_plus w s : means w s -> means (x2b :: w) (x20 :: s)
| me_percent h l b w s : hex_of (b2n b / 16) h -> hex_of (b2n b mod 16) l -> means w s -> means (x25 :: h :: l :: w) (b :: s)
| me_self b w s : b <> x25 -> b <> x2b -> means w s -> means (b :: w) (b :: s).
(** A piece between ampersands is a name and a value; nothing stands for an empty value with its
    equals sign; a semicolon spoils the piece. *)
Definition form_field (piece : bytes) (kv : bytes * bytes) : Prop :=
  ~ In x3b piece /\ piece <> [] /\ exists k v, (piece = k ++ x3d :: v \/ piece = k /\ v = []) /\ ~ In x3d k /\ means k (fst kv) /\ means v (snd kv).
(** The fields in order; pieces that are no field are left out. *)
Inductive fields : bytes -> list (bytes * bytes) -> Prop :=
| fi_last p : ~ In x26 p -> (forall kv, ~ form_field p kv) -> fields p []
| fi_last_field p kv : ~ In x26 p -> form_field p kv -> fields p [kv]
| fi_skip p q l : ~ In x26 p -> (forall kv, ~ form_field p kv) -> fields q l -> fields (p ++ x26 :: q) l
| fi_field p q kv l : ~ In x26 p -> form_field p kv -> fields q l -> fields (p ++ x26 :: q) (kv :: l).
(** The value of a name: the first. *)
Definition value (name : bytes) (l : list (bytes * bytes)) (v : bytes) : Prop :=
  (exists a b, l = a ++ (name, v) :: b /\ ~ In name (map fst a)) \/ v = [] /\ ~ In name (map fst l).
(** The fields of a request: those of a form in the body, then those of the query. *)
Definition form_in_body (method : bytes) (urlencoded : bool) (body : bytes) : Prop :=
  In method [s2b "POST"; s2b "PUT"; s2b "PATCH"] /\ urlencoded = true /\ (N.of_nat (length body) <= 10485760)%N.
Definition request_form (method query : bytes) (urlencoded : bool) (body : bytes) (l : list (bytes * bytes)) : Prop :=
  exists lb lq, fields query lq /\ (form_in_body method urlencoded body -> fields body lb) /\ (~ form_in_body method urlencoded body -> lb = []) /\ l = lb ++ lq.

(** ** Answers *)
(** The answer is due at this path itself. *)
Definition served (method path : bytes) : Prop :=
  path <> s2b "*" /\ (plain path \/ method = s2b "CONNECT" /\ exists r, path = x2f :: r).

(** The radio button that is on (see C74) *)
Inductive mode_on : bytes -> bytes -> Prop :=
| mo_search : mode_on (s2b "search") (s2b "Search")
| mo_extended : mode_on (s2b "extended") (s2b "Extended")
| mo_normal r : r <> s2b "search" -> r <> s2b "extended" -> mode_on r (s2b "Normal").

Section Answers.
Variables (gv : graphviz) (addr : coord -> bytes) (ideo : ideographic) (d : dict) (u : option udict) (omit : bool).
Variables (method path query : bytes) (urlencoded : bool) (body : bytes).
Inductive due : http_answer -> Prop :=
(** POST /tokenize *)
| du_tokens sen m mode ts tds r : served method path -> path = s2b "/tokenize" -> body_asks body (Request sen m) -> request_mode m mode ->
    analyze ideo (Tokenizer d u omit) sen mode = Ok ts -> Forall2 (fun tk td => new_token_data tk = Ok td) (no_markers ts) tds ->
    rs_status r = 200 -> rs_type r = s2b "application/json" ->
    json_text (rs_body r) (JObj [(s2b "status", JBool true); (s2b "tokens", JArr (map token_value tds))]) -> due (AJson r)
| du_wrong r : served method path -> path = s2b "/tokenize" -> (forall q, ~ body_asks body q) ->
    rs_status r = 400 -> rs_type r = s2b "text/plain; charset=utf-8" -> due (AJson r)
(** The demo page *)
| du_form l sen radio mode page : served method path -> path <> s2b "/tokenize" -> request_form method query urlencoded body l ->
    value (s2b "lattice") l [] -> value (s2b "s") l sen -> value (s2b "r") l radio ->
    (exists evs, SpecHtml.reads page evs) -> mode_on radio mode ->
    (~ In x00 sen -> (forall r, sen <> x0a :: r) -> form_shows page sen mode) -> due (APage page)
| du_lattice l lattice sen radio mode page : served method path -> path <> s2b "/tokenize" -> request_form method query urlencoded body l ->
    value (s2b "lattice") l lattice -> lattice <> [] -> value (s2b "s") l sen -> value (s2b "r") l radio -> page_mode radio mode ->
    (gv_found gv = false -> shows page sen radio [] [s2b "Error: circo/graphviz is not installed in your $PATH"] []) ->
    (gv_found gv = true -> forall e, gv_start gv = Some e -> shows page sen radio [] [message e (s2b "process done with error, " ++ fl_text e)] []) ->
    (gv_found gv = true -> gv_start gv = None -> exists ts g, analyze ideo (Tokenizer d u false) sen mode = Ok ts /\
       graph_text addr ideo (Tokenizer d u omit) sen mode = Ok g /\
       match gv_run gv g with
       | inl e => shows page sen radio [] [message e (s2b "process done with error, " ++ fl_text e)] []
       | inr out => exists rs svg, Forall2 row (no_markers ts) rs /\ from_svg out svg /\
           forall pic, picture svg pic -> shows page sen radio rs [] pic
       end) -> due (APage page)
(** Other paths *)
| du_moved p full names : path <> s2b "*" -> method <> s2b "CONNECT" -> ~ plain path -> plain p -> with_slash path full ->
    leads full names -> leads p names -> due (ARedirect 301 p query)
| du_missing : path <> s2b "*" -> method = s2b "CONNECT" -> (forall r, path <> x2f :: r) -> due ANotFound
| du_star : path = s2b "*" -> due ABadRequest.
End Answers.
