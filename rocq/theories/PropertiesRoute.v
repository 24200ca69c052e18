(** Property theorems: which request of the server reaches which handler (cmd/server/cmd.go). *)
From Verif Require Import Route SpecRoute RouteFacts Example Check.
Open Scope Z_scope.

(** ** C83: every address has one handler. *)
Theorem C83_tokenize : forall decode newer gv addr ideo t q, hq_uri q <> s2b "*" -> hq_method q <> s2b "CONNECT" -> plain (hq_path q) ->
  (hq_path q = s2b "/tokenize" ->
     serve_http decode newer gv addr ideo t q = (let* r := serve_tokenize decode newer ideo t (hq_body q) in Ok (AJson r))) /\
  (hq_path q <> s2b "/tokenize" ->
     serve_http decode newer gv addr ideo t q = (let* h := serve_root gv addr ideo t (hq_s q) (hq_r q) (hq_lattice q) in Ok (APage h))).
Proof. exact (fun decode newer gv addr ideo t q => @route_plain decode newer gv addr ideo t q). Qed.
Print Assumptions C83_tokenize.
(** An address that is not plain is sent on to the plain one that leads to the same place. *)
Theorem C83_redirect : forall decode newer gv addr ideo t q, hq_uri q <> s2b "*" -> hq_method q <> s2b "CONNECT" -> ~ plain (hq_path q) ->
  exists p full names, serve_http decode newer gv addr ideo t q = Ok (ARedirect 301 p (hq_query q)) /\
    plain p /\ with_slash (hq_path q) full /\ leads full names /\ leads p names /\
    (ends_in_slash full -> ends_in_slash p) /\ (ends_in_slash p -> ends_in_slash full \/ p = s2b "/").
Proof. exact (fun decode newer gv addr ideo t q => @route_other decode newer gv addr ideo t q). Qed.
Print Assumptions C83_redirect.
Theorem C83_one_place : forall p a b, leads p a -> leads p b -> a = b.
Proof. exact (fun p a b H => @leads_one p a H b). Qed.
Print Assumptions C83_one_place.
Theorem C83_connect : forall decode newer gv addr ideo t q, hq_uri q <> s2b "*" -> hq_method q = s2b "CONNECT" ->
  (hq_path q = s2b "/tokenize" ->
     serve_http decode newer gv addr ideo t q = (let* r := serve_tokenize decode newer ideo t (hq_body q) in Ok (AJson r))) /\
  (hq_path q <> s2b "/tokenize" -> (exists r, hq_path q = x2f :: r) ->
     serve_http decode newer gv addr ideo t q = (let* h := serve_root gv addr ideo t (hq_s q) (hq_r q) (hq_lattice q) in Ok (APage h))) /\
  ((forall r, hq_path q <> x2f :: r) -> serve_http decode newer gv addr ideo t q = Ok ANotFound).
Proof. exact (fun decode newer gv addr ideo t q => @route_connect decode newer gv addr ideo t q). Qed.
Print Assumptions C83_connect.
Definition ex_routes : list bytes := [s2b "/tokenize"; s2b "/"; s2b "/tokenize/"; s2b "//tokenize"; s2b "/a/./b/..//../tokenize"; s2b "tokenize"; []; s2b "/.."; s2b "/a/b/.."; s2b "/..."].
Definition ex_route (p : bytes) : bytes :=
  match serve_http (fun _ => inr []) true (Graphviz false None (fun _ => inr [])) (fun _ => []) (fun _ => false) (Tokenizer ex_dict None false) (get_request p) with
  | Ok (AJson _) => s2b "json" | Ok (APage _) => s2b "page" | Ok (ARedirect _ p _) => s2b "see " ++ p | _ => []
  end.
Example C83_example : map ex_route ex_routes =
  [s2b "json"; s2b "page"; s2b "page"; s2b "see /tokenize"; s2b "see /tokenize"; s2b "see /tokenize"; s2b "see /"; s2b "see /"; s2b "see /a"; s2b "page"].
Proof. by_eval. Qed.
Example C83_plain_example : plain (s2b "/tokenize") /\ ~ plain (s2b "//tokenize") /\
  leads (s2b "//tokenize") [s2b "tokenize"] /\ leads (s2b "/tokenize") [s2b "tokenize"].
Proof.
  assert (N : path_name (s2b "tokenize")) by (repeat split; try discriminate; cbv; intuition discriminate).
  split; [exact (plain_one N)|]. split.
  - intros [H|([|n names] & l & A & F & B & H)]; [discriminate H|congruence|]. inversion_clear F as [|? ? (X & _ & _ & Y) _]. destruct n as [|b n]; [congruence|].
    injection H as E _. apply Y. left. symmetry. exact E.
  - split; [exact (ld_name (s2b "/") [] _ (ld_stay [] [] [] ld_root (or_introl eq_refl)) N)|exact (ld_name [] [] _ ld_root N)].
Qed.

(** ** C84: what the page's script posts reaches the tokenize endpoint. *)
Theorem C84_radio_refuted : forall decode newer gv addr ideo t, exists page,
  serve_http decode newer gv addr ideo t (get_request (s2b "/")) = Ok (APage page) /\
  posts page (s2b "./a") /\ beside (s2b "/") (s2b "./a") (s2b "/a") /\
  forall q, hq_uri q <> s2b "*" -> hq_path q = s2b "/a" ->
    serve_http decode newer gv addr ideo t q = (let* h := serve_root gv addr ideo t (hq_s q) (hq_r q) (hq_lattice q) in Ok (APage h)).
Proof. exact radio_page. Qed.
Print Assumptions C84_radio_refuted.
Theorem C84_deeper_refuted : forall decode newer gv addr ideo t, exists page,
  serve_http decode newer gv addr ideo t (get_request (s2b "/demo/")) = Ok (APage page) /\
  posts page (s2b "./tokenize") /\ beside (s2b "/demo/") (s2b "./tokenize") (s2b "/demo/tokenize") /\
  forall q, hq_uri q <> s2b "*" -> hq_path q = s2b "/demo/tokenize" ->
    serve_http decode newer gv addr ideo t q = (let* h := serve_root gv addr ideo t (hq_s q) (hq_r q) (hq_lattice q) in Ok (APage h)).
Proof. exact deeper_page. Qed.
Print Assumptions C84_deeper_refuted.
(** What is typed into a page in the root reaches it. *)
Theorem C84_typed_partial : forall decode newer gv addr ideo t q q' page file target,
  serve_http decode newer gv addr ideo t q = Ok (APage page) -> hq_path q = x2f :: file -> ~ In x2f file ->
  posts page (s2b "./tokenize") -> beside (hq_path q) (s2b "./tokenize") target ->
  hq_uri q' <> s2b "*" -> hq_method q' = s2b "POST" -> hq_path q' = target ->
  serve_http decode newer gv addr ideo t q' = (let* r := serve_tokenize decode newer ideo t (hq_body q') in Ok (AJson r)).
Proof. exact (fun decode newer gv addr ideo t q q' page file target => @posts_reach decode newer gv addr ideo t q q' page file target). Qed.
Print Assumptions C84_typed_partial.
Theorem C84_posts_partial : forall sen radio, posts (form_page sen radio) (s2b "./tokenize").
Proof. exact (fun sen radio => proj1 (form_posts sen radio)). Qed.
Print Assumptions C84_posts_partial.
Example C84_example : beside (s2b "/") (s2b "./tokenize") (s2b "/tokenize") /\ beside (s2b "/_demo") (s2b "./tokenize") (s2b "/tokenize").
Proof.
  assert (N : path_name (s2b "tokenize")) by (repeat split; try discriminate; cbv; intuition discriminate).
  split; [exists (s2b "/"), [], (s2b "tokenize")|exists (s2b "/"), (s2b "_demo"), (s2b "tokenize")]; (split; [reflexivity|]); (split; [cbv; intuition discriminate|]);
    (split; [exists []; reflexivity|]); (split; [reflexivity|]); (split; [exact N|reflexivity]).
Qed.
