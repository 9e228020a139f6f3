(** * C125: which locales answer alike for every integer *)
From Coq Require Import Lia Floats.SpecFloat.
From Verif Require Import Base F64 Operands Ast LangId GenRs RustExpr PluralRules Tables Cldr Spec ApiProps
  Conformance BehaviourSpec CycleProps ClassProps.
Open Scope N_scope.

(** ** The table: cardinal rules and ordinal rules that answer alike are on one line *)
Definition integer_classes : list (string * string) := [
  ("af an asa ast az bem bez bg brx ca ce cgg chr ckb da de dv ee el en eo es et eu fi fo fur fy gl gsw ha haw hu
      ia io it jgo ji jmc ka kaj kcg kk kkj kl ks ksb ku ky lb lg mas mgo ml mn mr nah nb nd ne nl nn nnh no nr ny
      nyn om or os pap ps pt-PT rm rof rwk saq sc scn sd sdh seh sn so sq ss ssy st sv sw syr ta te teo tig tk tn tr
      ts ug ur uz ve vo vun wae xh xog yi", "fil fr ga hy lo mo ms ro tl vi");
  ("ak am as bho bn fa ff fr gu guw hi hy kab kn ln mg nso pa pcm pt si ti wa zu", "");
  ("ar ars", "");
  ("be", "");
  ("bm bo dz id ig ii in ja jbo jv jw kde kea km ko lkt lo ms my nqo osa sah ses sg su th to vi wo yo yue zh", "af am an ar bg bs ce cs da de dsb el es et eu fa fi fy gl gsw he hr hsb ia id in is iw ja km kn ko ky lt lv ml
      mn my nb nl pa pl prg ps pt ru sd sh si sk sl sr sw ta te th tr ur uz yue zh zu");
  ("br", "");
  ("bs hr sh sr", "");
  ("ceb fil tl", "");
  ("cs sk", "");
  ("cy", "");
  ("dsb hsb sl", "");
  ("ga", "");
  ("gd", "");
  ("gv", "");
  ("he iw", "");
  ("is mk", "");
  ("iu naq sat se sma smi smj smn sms", "");
  ("ksh lag", "");
  ("kw", "");
  ("lt", "");
  ("lv prg", "");
  ("mo ro", "");
  ("mt", "");
  ("pl", "");
  ("ru uk", "");
  ("shi", "");
  ("tzm", "");
  ("", "as bn");
  ("", "az");
  ("", "be");
  ("", "ca");
  ("", "cy");
  ("", "en");
  ("", "gd");
  ("", "gu hi");
  ("", "hu");
  ("", "it sc scn");
  ("", "ka");
  ("", "kk");
  ("", "kw");
  ("", "mk");
  ("", "mr");
  ("", "ne");
  ("", "or");
  ("", "sq");
  ("", "sv");
  ("", "tk");
  ("", "uk")]%string.
Definition side (t : pr_type) (p : string * string) : string := match t with CARDINAL => fst p | ORDINAL => snd p end.
Definition alike (t : pr_type) (a : langid) (t' : pr_type) (b : langid) : bool :=
  existsb (fun p => listed a (side t p) && listed b (side t' p)) integer_classes.

(** ** Closures that agree below bound and period agree everywhere *)
Definition agree_all (a b : body) : bool :=
  if body_eq_dec a b then true else
  negb (body_period a =? 0) && negb (body_period b =? 0) &&
  check_from (fun x => cat_eqb (int_select a x) (int_select b x))
    (N.to_nat (N.max (body_bound a) (body_bound b) + N.lcm (body_period a) (body_period b))) 0.
Lemma agree_all_ok a b : body_compiles a = true -> body_compiles b = true -> agree_all a b = true ->
  forall x, int_select a x = int_select b x.
Proof.
  intros CA CB H x. unfold agree_all in H. destruct (body_eq_dec a b) as [->|_]; [reflexivity|].
  apply andb_prop in H as [H K]. apply andb_prop in H as [PA PB].
  apply Bool.negb_true_iff, N.eqb_neq in PA. apply Bool.negb_true_iff, N.eqb_neq in PB.
  set (B := N.max (body_bound a) (body_bound b)) in *. set (P := N.lcm (body_period a) (body_period b)) in *.
  assert (P0 : P <> 0) by (unfold P; rewrite N.lcm_eq_0; tauto).
  assert (W : forall y, y < B + P -> int_select a y = int_select b y).
  { intros y Y. apply cat_eqb_eq. apply (check_from_ok _ _ _ K y); [lia|]. rewrite N2Nat.id. lia. }
  destruct (N.lt_ge_cases x B) as [L|G]; [apply W; lia|].
  pose proof (N.mod_lt (x - B) P P0) as M. pose proof (N.div_mod (x - B) P P0) as D.
  assert (E : x mod P = (B + (x - B) mod P) mod P).
  { replace x with (B + (x - B) mod P + ((x - B) / P) * P) at 1 by lia. now apply N.mod_add. }
  rewrite (body_cycle a B P x (B + (x - B) mod P)), (body_cycle b B P x (B + (x - B) mod P)); try assumption; try lia.
  - apply W. lia.
  - apply N.divide_lcm_r.
  - apply N.divide_lcm_l.
Qed.

(** ** The shipped tables *)
Definition line_body (p : string * string) : body :=
  match List.find (fun e => listed (fst e) (fst p)) (prs CARDINAL) with
  | Some e => snd e
  | None => match List.find (fun e => listed (fst e) (snd p)) (prs ORDINAL) with Some e => snd e | None => mkBody [] OTHER end
  end.
Notation line_bodies := (List.map (fun p : string * string => (p, line_body p)) integer_classes).
Notation line_of t id := (List.filter (fun q : string * string * body => listed id (side t (fst q))) line_bodies).
Lemma all_lines t : (let l := line_bodies in
  forallb (fun e => match List.filter (fun q => listed (fst e) (side t (fst q))) l with
                    | [(_, b)] => agree_all (snd e) b && body_compiles b
                    | _ => false end) (prs t)) = true.
Proof. destruct t; vm_compute; reflexivity. Qed.
Definition apart_at : list N := [2; 6; 21; 3; 0; 4; 8; 1; 15; 5; 10; 20].
Definition line_eqb (p q : string * string) : bool := String.eqb (fst p) (fst q) && String.eqb (snd p) (snd q).
Lemma all_lines_apart : (let l := line_bodies in
  forallb (fun q => forallb (fun q' => line_eqb (fst q) (fst q') ||
    existsb (fun x => negb (cat_eqb (int_select (snd q) x) (int_select (snd q') x))) apart_at) l) l) = true.
Proof. vm_compute; reflexivity. Qed.
Lemma apart_small x : In x apart_at -> x < 2 ^ 64.
Proof.
  assert (K : forallb (fun x => x <? 2 ^ 64) apart_at = true) by reflexivity.
  rewrite forallb_forall in K. intro I. now apply N.ltb_lt, K.
Qed.
Lemma line_eqb_eq p q : line_eqb p q = true <-> p = q.
Proof.
  unfold line_eqb. destruct p as [a b], q as [c d]. cbn [fst snd]. rewrite andb_true_iff, !String.eqb_eq. split.
  - intros [-> ->]. reflexivity.
  - intro E. injection E. auto.
Qed.

Lemma on_line t id b : In (id, b) (prs t) -> exists p r, line_of t id = [(p, r)] /\ forall x, int_select b x = int_select r x.
Proof.
  intro I. pose proof (all_lines t) as A. cbv zeta in A. rewrite forallb_forall in A. specialize (A _ I). cbn [fst snd] in A.
  destruct (List.filter _ _) as [|[p r] [|]]; try discriminate.
  apply andb_prop in A as [A C]. exists p, r. split; [reflexivity|].
  apply agree_all_ok; auto. now apply (prs_compile t id).
Qed.
Lemma line_in t id p r : line_of t id = [(p, r)] -> In (p, r) line_bodies.
Proof. intro E. assert (J : In (p, r) (line_of t id)) by (rewrite E; now left). rewrite filter_In in J. exact (proj1 J). Qed.
Lemma line_unique t id p r q : line_of t id = [(p, r)] -> In q integer_classes -> (listed id (side t q) = true <-> q = p).
Proof.
  intros E I. assert (J : listed id (side t q) = true <-> In (q, line_body q) (line_of t id)).
  { rewrite filter_In. cbn [fst]. split; [|intros [_ L]; exact L]. intro L. split; [|exact L].
    apply in_map_iff. exists q. split; [reflexivity|exact I]. }
  rewrite J, E. cbn [In]. split.
  - intros [H|[]]. injection H as H _. now symmetry.
  - intros ->. left. apply line_in in E. apply in_map_iff in E as (k & E & _). injection E as -> <-. reflexivity.
Qed.
Lemma alike_iff t id t' id' p r p' r' : line_of t id = [(p, r)] -> line_of t' id' = [(p', r')] ->
  (alike t id t' id' = true <-> p = p').
Proof.
  intros E E'. unfold alike. rewrite existsb_exists. split.
  - intros (q & I & H). apply andb_prop in H as [H H'].
    apply (line_unique t id p r q E I) in H. apply (line_unique t' id' p' r' q E' I) in H'. now rewrite <- H.
  - intros <-. exists p. pose proof (line_in _ _ _ _ E) as I. apply in_map_iff in I as (k & K & I).
    assert (k = p) by (injection K; auto). subst k. split; [exact I|]. apply andb_true_intro. split.
    + now apply (line_unique t id p r p E I).
    + now apply (line_unique t' id' p r' p E' I).
Qed.
Lemma C125_lemma how how' id t pr id' t' pr' w w' : create how id t = Ok pr -> create how' id' t' = Ok pr' ->
  ((forall x, x < 2 ^ 64 -> select w pr (InUnsigned x) = select w' pr' (InUnsigned x)) <-> alike t id t' id' = true).
Proof.
  intros C C'. pose proof (proj1 (C22_lemma _ _ _ _ C)) as I. pose proof (proj1 (C22_lemma _ _ _ _ C')) as I'.
  destruct (on_line t id _ I) as (p & r & E & R). destruct (on_line t' id' _ I') as (p' & r' & E' & R').
  rewrite (alike_iff t id t' id' p r p' r' E E'). split.
  - intro H. pose proof all_lines_apart as A. cbv zeta in A. rewrite forallb_forall in A.
    specialize (A _ (line_in _ _ _ _ E)). rewrite forallb_forall in A. specialize (A _ (line_in _ _ _ _ E')). cbn [fst snd] in A.
    apply orb_prop in A as [A|A]; [now apply line_eqb_eq|exfalso].
    apply existsb_exists in A as (x & X & D). apply apart_small in X. specialize (H x X).
    rewrite (select_int how id t pr w x C X), (select_int how' id' t' pr' w' x C' X), R, R' in H. injection H as H.
    rewrite H, (proj2 (cat_eqb_eq _ _) eq_refl) in D. discriminate.
  - intros <- x X. rewrite (select_int how id t pr w x C X), (select_int how' id' t' pr' w' x C' X), R, R'.
    pose proof (line_in _ _ _ _ E) as J. pose proof (line_in _ _ _ _ E') as J'.
    apply in_map_iff in J as (k & J & _). apply in_map_iff in J' as (k' & J' & _).
    injection J as -> <-. injection J' as -> <-. reflexivity.
Qed.

(** ** Locales whose cardinal and ordinal rules answer alike for integers *)
Definition one_answer : string := "id in ja km ko my th yue zh".
Lemma one_answer_table : forallb (fun e => Bool.eqb (alike CARDINAL (fst e) ORDINAL (fst e)) (listed (fst e) one_answer)) (prs ORDINAL) = true.
Proof. vm_compute. reflexivity. Qed.
Lemma C125_one_lemma how how' id pr pr' w w' : create how id CARDINAL = Ok pr -> create how' id ORDINAL = Ok pr' ->
  ((forall x, x < 2 ^ 64 -> select w pr (InUnsigned x) = select w' pr' (InUnsigned x)) <-> listed id one_answer = true).
Proof.
  intros C C'. rewrite (C125_lemma how how' id CARDINAL pr id ORDINAL pr' w w' C C').
  pose proof (proj1 (C22_lemma _ _ _ _ C')) as I. pose proof one_answer_table as A. rewrite forallb_forall in A.
  specialize (A _ I). cbn [fst] in A. apply Bool.eqb_prop in A. rewrite A. reflexivity.
Qed.
