(** * Texts: which numbers and which locale names

    Used by the statements of C81 and C82. *)
From Verif Require Import Base Spec.
Open Scope N_scope.

(** ** C81 *)
(** [t] is [s] without one leading minus sign *)
Definition without_minus (s t : bytes) : Prop := s = 45 :: t \/ (s = t /\ forall r, s <> 45 :: r).
(** Rust's syntax of floating-point numbers *)
Definition float_text (t : bytes) : Prop :=
  exists sg u, t = sg ++ u /\ sign_opt sg /\
    ((exists i ex, u = i ++ ex /\ digits i /\ i <> [] /\ exponent ex) \/
     (exists i f ex, u = i ++ 46 :: f ++ ex /\ digits i /\ digits f /\ i ++ f <> [] /\ exponent ex) \/
     special_word u).
(** a floating-point number with a point whose two sides are not both plain
    integers below 2^64 *)
Definition bad_parts (t : bytes) : Prop :=
  exists sg i f ex, t = sg ++ i ++ 46 :: f ++ ex /\ sign_opt sg /\ digits i /\ digits f /\ i ++ f <> [] /\ exponent ex /\
    (sg = [45] \/ i = [] \/ f = [] \/ ex <> [] \/ 2 ^ 64 <= dval i \/ 2 ^ 64 <= dval f).

(** ** C82 *)
(** equal up to the case of letters and the choice between '-' and '_' *)
Definition same_sign (c d : N) : Prop :=
  c = d \/ (65 <= c <= 90 /\ d = c + 32) \/ (65 <= d <= 90 /\ c = d + 32) \/ ((c = 45 \/ c = 95) /\ (d = 45 \/ d = 95)).
Definition same_spelling (s s' : bytes) : Prop := Forall2 same_sign s s'.
