(** * Language identifiers: which texts name which identifier

    Written from the grammar of Unicode language identifiers (UTS #35, without
    extensions), independently of the parser of LangId.v: letters of either
    case, '-' or '_' between subtags, and the canonical form of the result. *)
From Verif Require Import Base LangId JsonSpec.
Open Scope N_scope.

Definition letter (c : N) : Prop := 65 <= c <= 90 \/ 97 <= c <= 122.
Definition figure (c : N) : Prop := 48 <= c <= 57.
(** equal up to case, the second in lower (upper) case *)
Definition to_small (c d : N) : Prop := (65 <= c <= 90 /\ d = c + 32) \/ (~ 65 <= c <= 90 /\ d = c).
Definition to_capital (c d : N) : Prop := (97 <= c <= 122 /\ c = d + 32) \/ (~ 97 <= c <= 122 /\ d = c).

Definition language_of (t : bytes) (o : option bytes) : Prop :=
  Forall letter t /\ In (List.length t) [2; 3; 5; 6; 7; 8]%nat /\
  exists l, Forall2 to_small t l /\ ((l = bs "und" /\ o = None) \/ (l <> bs "und" /\ o = Some l)).
Definition script_of (t s : bytes) : Prop :=
  Forall letter t /\ List.length t = 4%nat /\
  exists c r d q, t = c :: r /\ to_capital c d /\ Forall2 to_small r q /\ s = d :: q.
Definition region_of (t r : bytes) : Prop :=
  (Forall letter t /\ List.length t = 2%nat /\ Forall2 to_capital t r) \/ (Forall figure t /\ List.length t = 3%nat /\ r = t).
Definition variant_of (t v : bytes) : Prop :=
  Forall (fun c => letter c \/ figure c) t /\ Forall2 to_small t v /\
  (In (List.length t) [5; 6; 7; 8]%nat \/ (List.length t = 4%nat /\ exists c r, t = c :: r /\ figure c)).

(** the subtags of a text *)
Inductive subtags : list bytes -> bytes -> Prop :=
| st_one t : ~ In 45 t -> ~ In 95 t -> subtags [t] t
| st_more t c l s : ~ In 45 t -> ~ In 95 t -> c = 45 \/ c = 95 -> subtags l s -> subtags (t :: l) (t ++ c :: s).
Definition maybe (P : bytes -> bytes -> Prop) (l : list bytes) (o : option bytes) : Prop :=
  (l = [] /\ o = None) \/ exists t x, l = [t] /\ P t x /\ o = Some x.
Fixpoint texts_increase (l : list bytes) : Prop :=
  match l with a :: ((b :: _) as r) => before a b /\ texts_increase r | _ => True end.
(** the variants in increasing order, each once *)
Definition variants_of (l : list bytes) (o : option (list bytes)) : Prop :=
  (l = [] /\ o = None) \/
  exists vs sorted, l <> [] /\ Forall2 variant_of l vs /\ o = Some sorted /\ texts_increase sorted /\ forall v, In v sorted <-> In v vs.
Definition names_id (s : bytes) (id : langid) : Prop :=
  exists l sc rg vs, subtags (l :: sc ++ rg ++ vs) s /\ language_of l (li_language id) /\
    maybe script_of sc (li_script id) /\ maybe region_of rg (li_region id) /\ variants_of vs (li_variants id).
