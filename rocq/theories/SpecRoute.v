(** Which requests reach which handler, independently of how paths are cleaned. *)
From Verif Require Export Route.

(** A name: not empty, not . or .., without a slash. *)
Definition path_name (n : bytes) : Prop := n <> [] /\ n <> s2b "." /\ n <> s2b ".." /\ ~ In x2f n.
(** A path that is a list of names, each after a slash, with or without a slash at its end. *)
Definition rendered (names : list bytes) : bytes := concat (map (cons x2f) names).
Definition plain (p : bytes) : Prop :=
  p = s2b "/" \/ exists names last, names <> [] /\ Forall path_name names /\ (last = [] \/ last = s2b "/") /\ p = rendered names ++ last.

(** Following a path from the root: an empty element and . stay, .. goes back, a name goes on.
    [leads p names]: the names one has gone through in the end. *)
Inductive leads : bytes -> list bytes -> Prop :=
| ld_root : leads [] []
| ld_stay p names e : leads p names -> e = [] \/ e = s2b "." -> leads (p ++ [x2f] ++ e) names
| ld_back p names : leads p names -> leads (p ++ [x2f] ++ s2b "..") (removelast names)
| ld_name p names e : leads p names -> path_name e -> leads (p ++ [x2f] ++ e) (names ++ [e]).

(** An address without its first slash is taken as if it had one. *)
Definition with_slash (p q : bytes) : Prop :=
  (exists r, p = x2f :: r /\ q = p) \/ ((forall r, p <> x2f :: r) /\ q = x2f :: p).
Definition ends_in_slash (p : bytes) : Prop := exists r, p = r ++ [x2f].

(** ** Addresses in a page *)
(** The page's script posts to [ref]. *)
Definition posts (page ref : bytes) : Prop := ~ In x27 ref /\ exists pre post, page = pre ++ s2b "$.post('" ++ ref ++ s2b "'" ++ post.
(** Where ./name leads from a page at [base]: beside it. *)
Definition beside (base ref target : bytes) : Prop :=
  exists dir file name, base = dir ++ file /\ ~ In x2f file /\ ends_in_slash dir /\ ref = s2b "./" ++ name /\ path_name name /\ target = dir ++ name.
