(** Specification of sentence splitting and of the stop list files. *)
From Verif Require Export Splitter.

(** Text with its white space runes removed. *)
Definition strip (s : bytes) : bytes := concat (map snd (filter (fun g => negb (is_space (fst g))) (segs s))).

(** [drops_space l l']: l' is l without some of its white space runes. *)
Inductive drops_space : list (N * bytes) -> list (N * bytes) -> Prop :=
| ds_nil : drops_space [] []
| ds_keep g l l' : drops_space l l' -> drops_space (g :: l) (g :: l')
| ds_drop g l l' : is_space (fst g) = true -> drops_space l l' -> drops_space (g :: l) l'.

(** Runes seen by the splitter: all of them, or all but the white space. *)
Definition visible (s : splitter) (l : list (N * bytes)) : list (N * bytes) :=
  if sp_skip s then filter (fun g => negb (is_space (fst g))) l else l.

Definition delim_rune (s : splitter) (g : N * bytes) : Prop := In (fst g) (sp_delim s).
Definition tail_rune (s : splitter) (g : N * bytes) : Prop := In (fst g) (sp_delim s) \/ In (fst g) (sp_follower s).
Definition last_is {A} (P : A -> Prop) (l : list A) : Prop := exists l' a, l = l' ++ [a] /\ P a.

(** A sentence: a body of at most MaxRuneLen runes (at least one) with no delimiter before its
    last rune, then delimiters and followers only, if the body is complete. *)
Definition complete (s : splitter) (body : list (N * bytes)) : Prop :=
  last_is (delim_rune s) body \/ (sp_max s <= Z.of_nat (length body))%Z.
Definition sentence (s : splitter) (rs : list (N * bytes)) : Prop :=
  exists body tail, rs = body ++ tail /\
    (Z.of_nat (length body) <= Z.max 1 (sp_max s))%Z /\
    (forall b1 g b2, body = b1 ++ g :: b2 -> b2 <> [] -> ~ delim_rune s g) /\
    Forall (tail_rune s) tail /\ (tail <> [] -> complete s body /\ body <> []).

(** Two line feeds among the runes, the second one last. *)
Definition two_line_feeds (l : list (N * bytes)) : Prop :=
  exists l1 g1 l2 g2, l = l1 ++ g1 :: l2 ++ [g2] /\ fst g1 = line_feed /\ fst g2 = line_feed.

(** Why a sentence ended, given the runes consumed and those left. *)
Definition ended (s : splitter) (consumed rest : list (N * bytes)) : Prop :=
  (* a complete sentence, and what follows does not belong to it *)
  ((exists body tail, visible s consumed = body ++ tail /\ body <> [] /\ complete s body /\ Forall (tail_rune s) tail) /\
   match rest with
   | [] => True
   | g :: _ => ~ tail_rune s g /\ (sp_skip s = true -> is_space (fst g) = false)
   end)
  (* a white space rune that is a delimiter *)
  \/ (sp_skip s = true /\ last_is (fun g => is_space (fst g) = true /\ delim_rune s g) consumed)
  (* a second line feed *)
  \/ (sp_dlf s = true /\ two_line_feeds consumed).

(** Lines of a file: pieces separated by line feeds (a last piece only if it is not empty),
    each without one final carriage return. *)
Inductive lines_of : bytes -> list bytes -> Prop :=
| lines_nil : lines_of [] []
| lines_last l : l <> [] -> ~ In x0a l -> lines_of l [l]
| lines_cons l rest ls : ~ In x0a l -> lines_of rest ls -> lines_of (l ++ x0a :: rest) (l :: ls).
Definition without_cr (l l' : bytes) : Prop := l = l' ++ [x0d] \/ (l' = l /\ ~ exists l'', l = l'' ++ [x0d]).

(** A line of a stop list: what precedes the first #; empty ones are skipped. *)
Inductive entry_of : bytes -> list bytes -> Prop :=
| entry_empty l : (l = [] \/ exists c, l = x23 :: c) -> entry_of l []
| entry_plain l : l <> [] -> ~ In x23 l -> entry_of l [l]
| entry_comment l c : l <> [] -> ~ In x23 l -> entry_of (l ++ x23 :: c) [l].
Definition config_of (file : bytes) (entries : list bytes) : Prop :=
  exists raw ls es, lines_of file raw /\ Forall2 without_cr raw ls /\ Forall2 entry_of ls es /\ entries = concat es.

(** Chunks of whole runes, each but the first beginning with a rune that cannot continue a
    finished sentence. *)
Definition ordinary_start (s : splitter) (c : bytes) : Prop :=
  match segs c with
  | [] => False
  | g :: _ => ~ tail_rune s g /\ (sp_skip s = true -> is_space (fst g) = false)
  end.
Definition whole_runes (log : list bytes) : Prop := Forall (fun c => valid_utf8 c = true) log.
Definition clean_cuts (s : splitter) (log : list bytes) : Prop := whole_runes log /\
  forall pre c post, log = pre ++ c :: post -> concat pre <> [] -> c <> [] -> ordinary_start s c.
(** No two line feeds within a sentence: the first follows a delimiter or nothing visible, or a delimiter or MaxRuneLen
    runes stand between them. Those with nothing visible between them or after them do not matter. *)
Definition lone_feeds (s : splitter) (l : list (N * bytes)) : Prop := forall x b y c z, l = x ++ (line_feed, b) :: y ++ (line_feed, c) :: z ->
  (forall v g, visible s x = v ++ [g] -> delim_rune s g) \/
  visible s y = [] \/ visible s z = [] \/ Exists (delim_rune s) y \/ (sp_max s <= Z.of_nat (length (visible s y)))%Z.
Definition nonempty (l : list bytes) : list bytes := filter (fun t => negb (length t =? 0)%nat) l.

(** A stop tag line as a POS pattern: its parts between hyphens, padded with * to four. *)
Definition tag_pattern (line : bytes) (p : list bytes) : Prop :=
  exists x l, line = x ++ concat (map (fun q => x2d :: q) l) /\ Forall (fun q => ~ In x2d q) (x :: l) /\
    exists k, p = (x :: l) ++ repeat (s2b "*") k /\ (length (x :: l) < 4 -> length p = 4)%nat /\ (4 <= length (x :: l) -> k = 0)%nat.

(** The setting in force: that of the last option of its kind, or the default. *)
Definition latest {A} (pick : ja_option -> option A) (opts : list ja_option) (default v : A) : Prop :=
  (exists a o b, opts = a ++ o :: b /\ pick o = Some v /\ Forall (fun x => pick x = None) b) \/
  (Forall (fun x => pick x = None) opts /\ v = default).
Definition opt_base (o : ja_option) := match o with BaseFormFilterOption p => Some p | _ => None end.
Definition opt_tags (o : ja_option) := match o with StopTagsFilterOption p => Some p | _ => None end.
Definition opt_words (o : ja_option) := match o with StopWordsFilterOption p => Some p | _ => None end.
