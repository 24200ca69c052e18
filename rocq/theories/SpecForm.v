(** What a browser sends for the form of cmd/server/asset/demo.html:90-101, after the HTML and URL
    standards. *)
From Verif Require Export SpecServer.
Open Scope Z_scope.

(** The line ends of a field become CR LF. *)
Fixpoint form_lines (s : bytes) : bytes :=
  match s with
  | [] => []
  | x0d :: x0a :: s' => x0d :: x0a :: form_lines s'
  | x0d :: s' => x0d :: x0a :: form_lines s'
  | x0a :: s' => x0d :: x0a :: form_lines s'
  | b :: s' => b :: form_lines s'
  end.
(** The bytes that stand for themselves *)
Definition unreserved (b : byte) : Prop :=
  let c := b2n b in (48 <= c <= 57 \/ 65 <= c <= 90 \/ 97 <= c <= 122 \/ c = 42 \/ c = 45 \/ c = 46 \/ c = 95)%N.
(** A digit of this value *)
Inductive hex_of : N -> byte -> Prop :=
| hex_0_9 n b : (n < 10)%N -> b2n b = (48 + n)%N -> hex_of n b
| hex_A_F n b : (10 <= n < 16)%N -> b2n b = (65 + (n - 10))%N -> hex_of n b
| hex_a_f n b : (10 <= n < 16)%N -> b2n b = (97 + (n - 10))%N -> hex_of n b.
(** Browsers write the bytes that stand for themselves so and the others in capital digits; other
    clients may do otherwise. *)
Inductive sent_byte : byte -> bytes -> Prop :=
| sb_self b : unreserved b -> sent_byte b [b]
| sb_space : sent_byte x20 [x2b]
| sb_percent b h l : hex_of (b2n b / 16) h -> hex_of (b2n b mod 16) l -> sent_byte b [x25; h; l].
Definition sent_as (s w : bytes) : Prop := exists ws, Forall2 sent_byte s ws /\ w = concat ws.
(** The body: the text area s, the radio button r that is on, and the button Lattice. *)
Definition form_body (s r body : bytes) : Prop := exists ws wr, sent_as (form_lines s) ws /\ sent_as r wr /\
  body = s2b "s=" ++ ws ++ s2b "&r=" ++ wr ++ s2b "&lattice=Lattice".

(** ** The table of the page while one types, against that of the page of a lattice *)
(** A text that can stand in a cell as it is *)
Definition plain_field (x : bytes) : Prop := x <> [] /\ valid_utf8 x = true /\ ~ In x00 x.
Definition plain_word (tk : token) : Prop :=
  plain_field (t_surface tk) /\
  (forall p, token_pos tk = Ok p -> strings_list p <> [] /\ Forall plain_field (strings_list p)) /\
  (forall v, base_form tk = Ok (v, true) \/ reading tk = Ok (v, true) \/ pronunciation tk = Ok (v, true) -> plain_field v).
