(** * Which operands a locale looks at

    Table used by the statement of C94. *)
From Coq Require Import Floats.SpecFloat.
From Verif Require Import Base F64 Operands Ast LangId GenRs BehaviourSpec.
Open Scope string_scope.
Open Scope N_scope.

(** two operand sets that agree on one operand *)
Definition same (o : operand) (a b : operands) : Prop :=
  match o with
  | ON => op_n a = op_n b
  | OI => op_i a = op_i b
  | OV => op_v a = op_v b
  | OW => op_w a = op_w b
  | OF => op_f a = op_f b
  | OT => op_t a = op_t b
  end.

Definition look_table (t : pr_type) : list (list operand * string) :=
  match t with
  | CARDINAL => [
    ([ON], "af an asa az bem bez bg brx ce cgg chr ckb cy dv ee el eo es eu fo fur gsw ha haw hu iu jgo jmc ka kaj kcg
      kk kkj kl ks ksb ksh ku ky lb lg mas mgo ml mn mr nah naq nb nd ne nn nnh no nr ny nyn om or os pap ps rm rof
      rwk saq sat sd sdh se seh sma smi smj smn sms sn so sq ss ssy st syr ta te teo tig tk tn tr ts ug uz ve vo vun
      wae xh xog");
    ([OI], "be ff fr hy kab pt");
    ([OI; OV], "ast ca cs de en et fi fy gl gv ia io it ji nl pl pt-PT ru sc scn sk sl sv sw uk ur yi");
    ([OI; OF], "ak bho guw ln lt mg nso pa ti tzm wa");
    ([OI; OT], "is");
    ([ON; OI], "am ar ars as bn br fa gu hi kn kw lag mt pcm zu");
    ([OI; OV; OF], "bs ceb dsb fil he hr hsb iw lv mk prg sh sr tl");
    ([ON; OI; OV], "mo ro");
    ([ON; OI; OF], "ga gd shi si");
    ([ON; OI; OT], "da");
    ([], "bm bo dz id ig ii in ja jbo jv jw kde kea km ko lkt lo ms my nqo osa sah ses sg su th to vi wo yo yue zh")]
  | ORDINAL => [
    ([ON], "as bn ca cy fil fr ga gd gu hi hu hy it lo mo mr ms ro sc scn tl vi");
    ([OI], "az be en ka mk sv uk");
    ([OI; OF], "ne");
    ([ON; OI], "kk kw sq tk");
    ([ON; OI; OF], "or");
    ([], "af am an ar bg bs ce cs da de dsb el es et eu fa fi fy gl gsw he hr hsb ia id in is iw ja km kn ko ky lt lv ml
      mn my nb nl pa pl prg ps pt ru sd sh si sk sl sr sw ta te th tr ur uz yue zh zu")]
  end.
Definition looks_at (t : pr_type) (id : langid) : list operand :=
  match List.find (fun e => listed id (snd e)) (look_table t) with Some (l, _) => l | None => [] end.
(** it looks at no operand but n and i *)
Definition only_n_and_i (t : pr_type) (id : langid) : bool :=
  forallb (fun o => match o with ON | OI => true | _ => false end) (looks_at t id).
