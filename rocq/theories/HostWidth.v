(** * C95: make_pluralrules on 32-bit and 64-bit machines *)
From Coq Require Import Lia Sorting.Permutation.
From Verif Require Import Base Ast CldrParser LangId Tokens GenPr GenRs Json JsonSpec JsonDe MakeRules
  DigitFacts Grammar FileSpec MakeFacts MakeTable MakeProps PtrWidth Main MainProps.
From Verif Require Import TextCardinals37 TextOrdinals37 TextCardinals33 TextOrdinals33 TextWithin Fixtures.
Open Scope N_scope.

(** the rule texts of a resource hold no number of 2^32 or more *)
Definition small_numbers (r : supplemental) : Prop :=
  forall t d key rules name text, data_of t r = Some d -> In (key, rules) d -> key <> bs "root" -> In (name, text) rules ->
    @numbers_fit W32 text.
(** its version, if a number at all, fits in 32 bits *)
Definition small_version (r : supplemental) : Prop :=
  forall z, @version_number W64 (version_of r) z -> (- 2 ^ 31 <= z < 2 ^ 31)%Z.

Lemma rules_width (r : bmap bytes) : (forall name text, In (name, text) r -> @numbers_fit W32 text) ->
  @gen_lang_rules W32 r = @gen_lang_rules W64 r.
Proof.
  induction r as [|[n tx] r IH]; intro H; [reflexivity|]. cbn [gen_lang_rules].
  rewrite (proj2 (C80_same_lemma tx (H n tx (or_introl eq_refl)))), IH; [reflexivity|]. intros n' t' I. exact (H n' t' (or_intror I)).
Qed.
Lemma map_res_ext {A B} (f g : A -> res B) l : (forall x, In x l -> f x = g x) -> map_res f l = map_res g l.
Proof.
  induction l as [|x l IH]; intro H; [reflexivity|]. cbn [map_res]. rewrite (H x (or_introl eq_refl)), IH; [reflexivity|].
  intros y I. exact (H y (or_intror I)).
Qed.
Lemma type_width srt (d : rule_map) : sorts srt ->
  (forall key rules name text, In (key, rules) d -> key <> bs "root" -> In (name, text) rules -> @numbers_fit W32 text) ->
  @gen_type_rs W32 srt d = @gen_type_rs W64 srt d.
Proof.
  intros S H. unfold gen_type_rs. destruct (parse_keys d) as [l| |] eqn:P; cbn [rbind]; [|reflexivity|reflexivity]. apply map_res_ext.
  intros [id rules] I. rewrite (rules_width rules); [reflexivity|]. intros name text J.
  apply (Permutation_in _ (Permutation_sym (proj1 (S _ l)))) in I. apply parse_keys_ok in P.
  destruct (Forall2_in_r _ _ _ _ P I) as ([key rules'] & J' & _ & E). cbn [fst snd] in *. subst rules'.
  apply filter_In in J' as [J1 J2]. cbn [fst] in J2. apply (H key rules name text J1); [|exact J].
  intros ->. discriminate J2.
Qed.
Lemma version_width v : (forall z, @version_number W64 v z -> (- 2 ^ 31 <= z < 2 ^ 31)%Z) -> @isize_from_str W32 v = @isize_from_str W64 v.
Proof.
  intro H. destruct (@isize_from_str W64 v) as [z|] eqn:E.
  - apply (@isize_iff W64) in E. apply (@isize_iff W32). specialize (H z E). destruct E as (sg & ds & E1 & D & NE & E).
    exists sg, ds. split; [exact E1|]. split; [exact D|]. split; [exact NE|]. unfold isize_end. destruct E as [(S & Z & L)|(S & Z & L)]; [left|right]; (split; [exact S|]); (split; [exact Z|lia]).
  - destruct (@isize_from_str W32 v) as [z|] eqn:E'; [|reflexivity]. exfalso. apply (@isize_iff W32) in E'.
    assert (K : @version_number W64 v z).
    { destruct E' as (sg & ds & E1 & D & NE & E'). exists sg, ds. split; [exact E1|]. split; [exact D|]. split; [exact NE|].
      unfold isize_end in *. assert (2 ^ 31 < 2 ^ 63)%Z by reflexivity.
      destruct E' as [(S & Z & L)|(S & Z & L)]; [left|right]; (split; [exact S|]); (split; [exact Z|lia]). }
    apply (@isize_iff W64) in K. congruence.
Qed.
Lemma part_width srt cur d : sorts srt ->
  (forall m key rules name text, d = Some m -> In (key, rules) m -> key <> bs "root" -> In (name, text) rules -> @numbers_fit W32 text) ->
  @gen_part W32 srt cur d = @gen_part W64 srt cur d.
Proof.
  intros S H. destruct d as [m|]; [|reflexivity]. cbn [gen_part]. rewrite (type_width srt m S); [reflexivity|].
  intros key rules name text. exact (H m key rules name text eq_refl).
Qed.
Definition small (r : supplemental) : Prop := small_numbers r /\ small_version r.
Definition good_state (st : gen_state) : Prop := forall v, g_version st = Some v -> @isize_from_str W32 v = @isize_from_str W64 v.
Lemma step_width srt st r : sorts srt -> small r -> good_state st ->
  @gen_step W32 srt st r = @gen_step W64 srt st r /\ forall st', @gen_step W64 srt st r = Ok st' -> good_state st'.
Proof.
  intros S [N V] G. unfold gen_step.
  rewrite (part_width srt (g_cardinal st) (su_cardinal r) S) by (intros m key rules name text; exact (N CARDINAL m key rules name text)).
  rewrite (part_width srt (g_ordinal st) (su_ordinal r) S) by (intros m key rules name text; exact (N ORDINAL m key rules name text)).
  split; [reflexivity|]. intros st' H. apply rbind_ok in H as (ver & E & H). apply rbind_ok in H as (c & _ & H). apply rbind_ok in H as (o & _ & H).
  injection H as <-. intros v X. cbn [g_version] in X. injection X as <-. unfold good_state in G. destruct (g_version st) as [v0|].
  - destruct (bytes_eqb v0 _); [|discriminate]. injection E as <-. now apply G.
  - injection E as <-. apply version_width. exact V.
Qed.
Lemma loop_width srt jsons : sorts srt -> (forall j r, In j jsons -> resource_text j r -> small r) -> forall st, good_state st ->
  @gen_loop W32 srt st jsons = @gen_loop W64 srt st jsons /\ forall st', @gen_loop W64 srt st jsons = Ok st' -> good_state st'.
Proof.
  intros S. induction jsons as [|j jsons IH]; intros H st G.
  - split; [reflexivity|]. intros st' E. injection E as <-. exact G.
  - cbn [gen_loop]. destruct (parse_plurals_resource_from_string j) as [r|] eqn:P; cbn [unwrap rbind]; [|split; [reflexivity|discriminate]].
    apply resource_text_iff in P. destruct (step_width srt st r S (H j r (or_introl eq_refl) P) G) as [E K]. rewrite E.
    destruct (@gen_step W64 srt st r) as [st1| |]; cbn [rbind]; [|split; [reflexivity|discriminate]..]. apply IH; [|now apply K].
    intros j' r' I. exact (H j' r' (or_intror I)).
Qed.
Lemma C95_lemma srt jsons : sorts srt -> (forall j r, In j jsons -> resource_text j r -> small_numbers r /\ small_version r) ->
  @generate_rs W32 srt jsons = @generate_rs W64 srt jsons.
Proof.
  intros S H. unfold generate_rs, generate_tokens. assert (G0 : good_state (mkGen None None None)) by (intros v X; discriminate).
  destruct (loop_width srt jsons S H _ G0) as [E K]. rewrite E. destruct (@gen_loop W64 srt _ jsons) as [st| |]; cbn [rbind]; [|reflexivity|reflexivity].
  specialize (K st eq_refl). unfold gen_finish. unfold good_state in K. destruct (g_version st) as [v|]; [|reflexivity]. specialize (K v eq_refl).
  destruct (match g_cardinal st with Some _ => _ | None => _ end ++ _) as [|x l]; [reflexivity|]. unfold gen_fn. now rewrite K.
Qed.

(** ** The shipped files and the fixtures *)
Definition small_text (j : bytes) : bool :=
  match parse_plurals_resource_from_string j with
  | Some r =>
      forallb (fun t => match data_of t r with
        | Some d => forallb (fun '(_, rules) => forallb (fun '(_, text) => runs_below (2 ^ 32) 0 text) rules) d
        | None => true end) [CARDINAL; ORDINAL] &&
      match @isize_from_str W64 (version_of r) with Some z => (-1 <? z)%Z && (z <? 100)%Z | None => false end
  | None => true
  end.
Lemma small_text_ok j : small_text j = true -> forall r, resource_text j r -> small r.
Proof.
  unfold small_text. intros H r R. apply resource_text_iff in R. rewrite R in H. apply andb_prop in H as [H1 H2]. split.
  - intros t d key rules name text D I _ J. rewrite forallb_forall in H1. assert (T : In t [CARDINAL; ORDINAL]) by (destruct t; cbn; auto).
    specialize (H1 t T). cbv beta in H1. rewrite D in H1. rewrite forallb_forall in H1. specialize (H1 _ I). cbn beta iota in H1.
    rewrite forallb_forall in H1. specialize (H1 _ J). cbn beta iota in H1. intros a ds b E X. exact (runs_below_any _ _ 0 H1 eq_refl a ds b E X).
  - intros z Z. apply (@isize_iff W64) in Z. rewrite Z in H2. lia.
Qed.
Lemma shipped_small : forallb small_text [cardinals37_json; ordinals37_json; trim cardinals33_json; trim ordinals33_json; trim within_json] = true.
Proof. vm_compute. reflexivity. Qed.
Lemma C95_any_lemma {ptr : ptr_width} srt jsons : sorts srt ->
  incl jsons [cardinals37_json; ordinals37_json; trim cardinals33_json; trim ordinals33_json; trim within_json] ->
  @generate_rs ptr srt jsons = @generate_rs W64 srt jsons.
Proof.
  intros S I. destruct ptr; [|reflexivity]. apply C95_lemma; [exact S|]. intros j r J. apply small_text_ok.
  pose proof shipped_small as A. rewrite forallb_forall in A. apply A, I, J.
Qed.
