(** * The samples of a rule text (UTS #35, "Samples")

    After '@' a rule text lists numbers, and ranges "a~b" that stand for all
    numbers from a to b with as many fraction digits. *)
From Verif Require Import Base Ast Spec.
Open Scope N_scope.

(** blank, comma, '@' *)
Definition separator (c : N) : Prop := c = 32 \/ c = 44 \/ c = 64.
(** [w] is one of the words into which the separators divide [text] *)
Definition word_of (text w : bytes) : Prop :=
  exists a b, text = a ++ w ++ b /\ Forall (fun c => ~ separator c) w /\
    (a = [] \/ exists a' c, a = a' ++ [c] /\ separator c) /\
    (b = [] \/ exists c b', b = c :: b' /\ separator c).
(** [d] is the number [w], or in the range [w] *)
Definition stands_for (w : bytes) (d : decimal) : Prop :=
  numeral w d \/
  exists a b x y, w = a ++ bs "~" ++ b /\ numeral a x /\ numeral b y /\
    uts_v d = uts_v x /\ uts_v d = uts_v y /\ Forall (fun c => c < 10) (d_frac d) /\
    uts_num x <= uts_num d <= uts_num y.
(** [d] is among the samples of the rule [text] *)
Definition sample (text : bytes) (d : decimal) : Prop :=
  exists before after w, text = before ++ bs "@" ++ after /\ word_of after w /\ stands_for w d.
