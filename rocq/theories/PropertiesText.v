(** Property theorems: the String methods of tokens and modes (tokenizer/token.go,
    tokenizer/tokenizer.go). *)
From Verif Require Import Text SpecText TextFacts SpecCmd OptFacts CmdMain CmdMore Example Check.
From Coq Require Import Lia.
Open Scope N_scope.

(** ** C65 *)
Theorem C65_read_back : forall printable t, sober printable -> read_token (token_string printable t) = Some (fields_of t).
Proof. exact (fun p t => @token_read p t). Qed.
Print Assumptions C65_read_back.
Theorem C65_distinct : forall printable a b, sober printable -> token_string printable a = token_string printable b -> fields_of a = fields_of b.
Proof. exact token_text_inj. Qed.
Print Assumptions C65_distinct.
Theorem C65_one_line : forall printable t, sober printable -> Forall (fun b => 32 <= b2n b /\ b <> x7f) (token_string printable t).
Proof. exact (fun p t => @token_visible p t). Qed.
Print Assumptions C65_one_line.
(** A surface with a quotation mark, a line feed, an invalid byte, a rune that is printable and two
    that are not. *)
Definition ex_printable (r : N) : bool := (32 <=? r) && negb (r =? 127) && negb (r =? 8203) && (r <? 65536).
Definition odd_token : token :=
  Token 3 (-7) UNKNOWN 10 2 9 (s2b "a""\" ++ [x0a; xff; x7f] ++ s2b "東" ++ [xe2; x80; x8b; xf0; x9f; x8d; x8e]) ex_dict None.
Example C65_example : sober ex_printable /\
  token_string ex_printable odd_token = s2b "3:""a\""\\\n\xff\x7f東\u200b\U0001f34e"" (10: 2, 9) UNKNOWN [-7]".
Proof. split; [intros r [H| ->]; unfold ex_printable; [destruct (N.leb_spec 32 r); [lia|reflexivity]|reflexivity]|by_eval]. Qed.

(** ** C66: the name of a mode is a value of the option -mode. *)
Theorem C66_mode_names_refuted : exists m, In m [mode_normal; mode_search; mode_extended] /\ mode_string m = s2b "extend" /\
  forall w prog, exists tr, kagome w [prog; s2b "-mode"; mode_string m] = (tr, Status 1) /\ only_messages tr.
Proof. exact extended_name_rejected. Qed.
Print Assumptions C66_mode_names_refuted.
Theorem C66_mode_names_partial : forall m, In m [mode_normal; mode_search] ->
  exists o, tok_args [s2b "-mode"; mode_string m] o /\ mode_of (to_mode o) m.
Proof. exact mode_names_accepted. Qed.
Print Assumptions C66_mode_names_partial.
Theorem C66_distinct : forall a b, mode_string a = mode_string b -> a = b.
Proof. exact mode_names_inj. Qed.
Print Assumptions C66_distinct.
Example C66_example : map mode_string [0; 1; 2; 3; 4]%Z =
  [s2b "unknown tokenize mode (0)"; s2b "normal"; s2b "search"; s2b "extend"; s2b "unknown tokenize mode (4)"].
Proof. by_eval. Qed.
