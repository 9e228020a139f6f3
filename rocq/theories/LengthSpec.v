(** * Locales whose rules are right for numbers of any length

    Table used by the statement of C88, written as in BehaviourSpec.v. *)
From Verif Require Import Base LangId GenRs BehaviourSpec.
Open Scope string_scope.

Definition any_length (t : pr_type) : string :=
  match t with
  | CARDINAL =>
"ak ast bho bm bo ca cs da de dz en et ff fi fr fy gl guw hy ia id ig ii in io it ja jbo ji jv jw kab kde kea
km ko lkt ln lo mg ms my nl nqo nso osa pa pt pt-PT sah sc scn ses sg sk su sv sw th ti to tzm ur vi wa wo yi
yo yue zh"
  | ORDINAL =>
"af am an ar bg bs ce cs da de dsb el es et eu fa fi fy gl gsw he hr hsb ia id in is iw ja km kn ko ky lt lv ml
mn my nb ne nl pa pl prg ps pt ru sd sh si sk sl sr sw ta te th tr ur uz yue zh zu"
  end.

(** Table used by the statement of C89: locales wrong for some finite f64. *)
Definition float_wrong (t : pr_type) : string :=
  match t with
  | CARDINAL => "ar ars be br bs ceb dsb fil gv he hr hsb iw kw lt lv mo mt pl prg ro ru sh sl sr tl uk"
  | ORDINAL => "az be en ka kk kw mk sq sv tk uk"
  end.
(** wrong for some finite f32 *)
Definition float32_wrong (t : pr_type) : string :=
  match t with
  | CARDINAL => "ar ars be br gv he iw kw lt lv mo mt prg ro"
  | ORDINAL => "az be en ka kk kw sq sv tk uk"
  end.
