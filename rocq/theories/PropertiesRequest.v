(** Property theorems: every request to the server, from the bytes of its path, query and body to the
    answer (cmd/server). *)
From Verif Require Import Check Example SpecFeat SpecForm SpecRequest Page Form PropertiesForm DecodeServe RequestFacts.
Open Scope Z_scope.

(** ** C103: every request gets the answer it is due. *)
Theorem C103_answers : forall printable newer gv addr ideo d u omit method path query urlencoded body, wf_dict d -> wf_udict u -> wf_data d ->
  exists a, respond printable newer gv addr ideo d u omit method path query urlencoded body = Ok a /\
    due gv addr ideo d u omit method path query urlencoded body a.
Proof. exact (fun pr newer gv addr ideo d u omit method path query url body Hd Hu Hw => @answered pr newer gv addr ideo d u omit Hd Hu Hw method path query url body). Qed.
Print Assumptions C103_answers.
(** The fields of a request and the value of a name are determined. *)
Theorem C103_fields : forall method query urlencoded body,
  (exists l, request_form method query urlencoded body l /\ forall name, exists v, value name l v) /\
  (forall a b, request_form method query urlencoded body a -> request_form method query urlencoded body b -> a = b) /\
  (forall name l a b, value name l a -> value name l b -> a = b).
Proof.
  exact (fun method query url body => conj (match parse_form_ok method query url body with ex_intro _ l (conj _ F) => ex_intro _ l (conj F (fun name => ex_intro _ _ (form_value_ok name l))) end)
    (conj (fun a b => @request_form_one method query url body a b) (fun name l a b => @value_one name l a b))).
Qed.
Print Assumptions C103_fields.
(** A request is due one kind of answer only. *)
Theorem C103_kinds : forall gv addr ideo d u omit method path query urlencoded body a b,
  due gv addr ideo d u omit method path query urlencoded body a -> due gv addr ideo d u omit method path query urlencoded body b ->
  match a, b with
  | AJson r, AJson r' => rs_status r = rs_status r' /\ rs_type r = rs_type r'
  | APage _, APage _ | ANotFound, ANotFound | ABadRequest, ABadRequest => True
  | ARedirect c _ q, ARedirect c' _ q' => c = c' /\ q = q'
  | _, _ => False
  end.
Proof. exact due_kinds. Qed.
Print Assumptions C103_kinds.

Definition ask (method path query : string) (urlencoded : bool) (body : bytes) : res http_answer :=
  respond ascii_only true ex_viz (fun _ => s2b "n") ex_ideo ex_dict None true (s2b method) (s2b path) (s2b query) urlencoded body.
(** A link with the fields in the query, in another order than the form's, one of them twice, one spoilt. *)
Definition ex_query : string := "x=%zz&lattice=1&r=Search&&s=%e6%9D%b1+a&s=b&r;=2".
Example C103_example_fields : request_form (s2b "GET") (s2b ex_query) false [] [(s2b "lattice", s2b "1"); (s2b "r", s2b "Search"); (s2b "s", s2b "東 a"); (s2b "s", s2b "b")] /\
  value (s2b "s") [(s2b "lattice", s2b "1"); (s2b "r", s2b "Search"); (s2b "s", s2b "東 a"); (s2b "s", s2b "b")] (s2b "東 a").
Proof.
  split; [|left; exists [(s2b "lattice", s2b "1"); (s2b "r", s2b "Search")], [(s2b "s", s2b "b")]; split; [reflexivity|cbv; intuition discriminate]].
  destruct (parse_form_ok (s2b "GET") (s2b ex_query) false []) as (l & E & F).
  assert (B : parse_form (s2b "GET") (s2b ex_query) false [] = Ok [(s2b "lattice", s2b "1"); (s2b "r", s2b "Search"); (s2b "s", s2b "東 a"); (s2b "s", s2b "b")]) by by_eval.
  rewrite B in E. injection E as <-. exact F.
Qed.
Definition kind_of (a : res http_answer) : Z := match a with Ok (AJson r) => rs_status r | Ok (APage _) => 200 | Ok (ARedirect c _ _) => c | Ok ANotFound => 404 | Ok ABadRequest => 400 | _ => 0 end.
Example C103_example :
  skipn 3 (page_rows (ask "GET" "/" ex_query false [])) =
    [[s2b "東"; s2b "名詞,一般"; s2b "東"; s2b "ヒガシ"; s2b "*"]; [s2b " "; s2b "記号,*"; s2b "*"; s2b "*"; s2b "*"]; [s2b "a"; s2b "名詞,一般"; s2b "*"; s2b "*"; s2b "*"]] /\
  map (fun x => kind_of (ask (fst (fst x)) (snd (fst x)) "" false (s2b (snd x))))
    [("POST", "/tokenize", "{""sentence"":""東""}"); ("PUT", "/tokenize", "null"); ("POST", "/tokenize", "x"); ("GET", "/a/..//tokenize", ""); ("GET", "/tokenize/", "");
     ("CONNECT", "", ""); ("OPTIONS", "*", "")]%string = [200; 200; 400; 301; 200; 404; 400].
Proof. split; by_eval. Qed.
