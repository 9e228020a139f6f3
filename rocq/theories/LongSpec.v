(** * Numerals of any length (C121)

    A numeral with many digits is first rounded to the nearest binary64 number.
    A number with a fraction can become an integer that way, and a rule that
    compares [n] itself then takes it for one.  The tables say for every locale
    with which integers its rules compare [n], and for which numbers the category
    is wrong when [n] has become one of them. *)
From Coq Require Import Reals Floats.SpecFloat.
From Flocq Require Import Core IEEE754.BinarySingleNaN.
From Verif Require Import Base LangId GenRs PluralRules Spec SpecR BehaviourSpec WrongSpec.
Open Scope N_scope.

(** [d] is no integer but the nearest binary64 number is the integer [k] *)
Definition rounded_to (d : decimal) (k : N) : Prop :=
  uts_f d <> 0 /\ exists y, nearest64 (exact_value (uts_num d) (List.length (d_frac d))) y /\
    is_finite_SF y = true /\ SF2R radix2 y = IZR (Z.of_N k).

(** locales, the integers they compare with, and for which integer part [i] and
    fraction digits [f] a number rounded to one of these integers gets a wrong category *)
Definition always (i f : N) : bool := true.
Definition never (i f : N) : bool := false.
Definition rounding_table (t : pr_type) : list (string * list N * (N -> N -> bool)) :=
  match t with
  | CARDINAL =>
      [("af an asa az bem bez bg brx ce cgg chr ckb dv ee el eo es eu fo fur gsw ha haw hu jgo jmc ka kaj kcg kk kkj kl ks ksb ku ky lb lg mas mgo ml mn mr nah nb nd ne nn nnh no nr ny nyn om or os pap ps rm rof rwk saq sd sdh seh sn so sq ss ssy st syr ta te teo tig tk tn tr ts ug uz ve vo vun wae xh xog"%string,
          [1], always);
       (* [i = 0 or n = 1]: below 1 the category is that of 1 anyway *)
       ("am as bn fa gu hi kn pcm shi zu"%string, [1], fun i f => negb (i =? 0));
       ("ar ars"%string, [0; 1; 2], always);
       ("cy"%string, [0; 1; 2; 3; 6], always);
       ("ga iu naq sat se sma smi smj smn sms"%string, [1; 2], always);
       ("gd"%string, [1; 2; 11; 12], always);
       ("ksh kw mt"%string, [0; 1], always);
       ("lag"%string, [0], always);
       (* [n = 0,1 or i = 0 and f = 1] *)
       ("si"%string, [0; 1], fun i f => negb ((i =? 0) && (f =? 1)));
       (* [v != 0 or n = 0 or ...] and [n = 1 or t != 0 and i = 0,1]: right all the same;
          in Breton 0.1 is taken for a million, but not so once it has become 0 *)
       ("mo ro br"%string, [0], never);
       ("da"%string, [1], never)]
  | ORDINAL =>
      [("as bn"%string, [1; 2; 3; 4; 5; 6; 7; 8; 9; 10], always);
       ("ca mr"%string, [1; 2; 3; 4], always);
       ("cy"%string, [0; 1; 2; 3; 4; 5; 6; 7; 8; 9], always);
       ("fil fr ga hy lo mo ms ro sq tl vi"%string, [1], always);
       ("gd"%string, [1; 2; 3; 11; 12; 13], always);
       ("gu hi"%string, [1; 2; 3; 4; 6], always);
       ("hu"%string, [1; 5], always);
       ("it sc scn"%string, [8; 11; 80; 800], always);
       ("kw"%string, [5], always);
       ("or"%string, [1; 2; 3; 4; 5; 6], always);
       ("tk"%string, [10], always);
       (* [n % 10 = 0 and n != 0]: 0.1 is taken for 10, but not so once it has become 0 *)
       ("kk"%string, [0], never)]
  end.
Definition rounding (t : pr_type) (id : langid) (k i f : N) : option bool :=
  match List.find (fun e => listed id (fst (fst e)) && among k (snd (fst e))) (rounding_table t) with
  | Some (_, _, wrong) => Some (wrong i f)
  | None => None
  end.

(** the category of [d] is wrong although, or because, the number became [k] *)
Definition rounded_wrong (t : pr_type) (id : langid) (k : N) (d : decimal) : bool :=
  match rounding t id k (uts_i d) (uts_f d) with
  | Some wrong => wrong
  | None => wrong_number t id d
  end.
