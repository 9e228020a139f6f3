(** * Reading back the generated file *)
From Coq Require Import Lia Sorting.Permutation.
From Verif Require Import Base Ast CldrParser LangId Tokens GenPr GenRs Json MakeRules RustExpr
  DigitFacts LangIdFacts LexFacts FileSpec MakeFacts GenFacts.
Open Scope N_scope.

Section Width.
Context {ptr : ptr_width}.

(** ** Subtags *)
Definition tag_ok (n : nat) (s : bytes) : Prop :=
  (List.length s <= n)%nat /\ Forall (fun c => 0 < c < 128) s.
Definition opt_ok (n : nat) (o : option bytes) : Prop := match o with Some s => tag_ok n s | None => True end.
Definition id_ok (id : langid) : Prop :=
  opt_ok 8 (li_language id) /\ opt_ok 4 (li_script id) /\ opt_ok 4 (li_region id).
Lemma alpha_range p s : (forall c, p c = true -> 0 < c < 128) -> forallb p s = true -> Forall (fun c => 0 < c < 128) s.
Proof.
  intros H F. rewrite forallb_forall in F. apply Forall_forall. intros c I. apply H, F, I.
Qed.
Lemma lower_range s : Forall (fun c => 0 < c < 128) s -> Forall (fun c => 0 < c < 128) (lower s).
Proof.
  intros H. unfold lower. apply Forall_map. eapply Forall_impl; [|exact H]. intros c C. cbn. unfold to_lower.
  destruct ((65 <=? c) && (c <=? 90)) eqn:E; [|auto]. apply andb_prop in E as [_ E]. apply N.leb_le in E. clear - C E. cbn in *. lia.
Qed.
Lemma upper_range s : Forall (fun c => 0 < c < 128) s -> Forall (fun c => 0 < c < 128) (upper s).
Proof.
  intros H. unfold upper. apply Forall_map. eapply Forall_impl; [|exact H]. intros c C. cbn. unfold to_upper.
  destruct ((97 <=? c) && (c <=? 122)) eqn:E; [|auto]. apply andb_prop in E as [E _]. apply N.leb_le in E. clear - C E. cbn in *. lia.
Qed.
Lemma is_alpha_range c : is_alpha c = true -> 0 < c < 128.
Proof. unfold is_alpha. lia. Qed.
Lemma is_digit_range c : is_digit c = true -> 0 < c < 128.
Proof. unfold is_digit. lia. Qed.
Lemma language_ok s l : language_from_bytes s = Some l -> opt_ok 8 l.
Proof.
  unfold language_from_bytes. destruct (_ && _)%bool eqn:E; [|discriminate]. intros H. injection H as <-.
  apply andb_prop in E as [E A]. apply andb_prop in E as [E _]. apply andb_prop in E as [_ E]. apply Nat.leb_le in E.
  destruct (bytes_eqb _ _); [exact Logic.I|]. split; [unfold lower; now rewrite map_length|].
  apply lower_range. now apply (alpha_range is_alpha _ is_alpha_range).
Qed.
Lemma script_ok s l : script_from_bytes s = Some l -> tag_ok 4 l.
Proof.
  unfold script_from_bytes. destruct (_ && _)%bool eqn:E; [|discriminate]. intros H. injection H as <-.
  apply andb_prop in E as [E A]. apply Nat.eqb_eq in E. destruct s as [|c s]; [discriminate|].
  apply (alpha_range is_alpha _ is_alpha_range) in A. inversion A as [|? ? C A']; subst. split.
  - unfold title, lower. cbn in *. rewrite map_length. lia.
  - constructor; [|now apply lower_range]. apply (upper_range [c]) in C || (assert (K : Forall (fun c => 0 < c < 128) (upper [c])) by (apply upper_range; now constructor); now inversion K).
Qed.
Lemma region_ok s l : region_from_bytes s = Some l -> tag_ok 4 l.
Proof.
  unfold region_from_bytes. destruct (Nat.eqb (List.length s) 2 && all_alpha s)%bool eqn:E.
  - intros H. injection H as <-. apply andb_prop in E as [E A]. apply Nat.eqb_eq in E. split.
    + unfold upper. rewrite map_length. lia.
    + apply upper_range. now apply (alpha_range is_alpha _ is_alpha_range).
  - destruct (Nat.eqb (List.length s) 3 && all_digit s)%bool eqn:E2; [|discriminate]. intros H. injection H as <-.
    apply andb_prop in E2 as [E2 A]. apply Nat.eqb_eq in E2. split; [lia|]. now apply (alpha_range is_digit _ is_digit_range).
Qed.
Lemma subtags_ok l : forall pos sc rg vs sc' rg' vs', parse_subtags pos sc rg vs l = Some (sc', rg', vs') ->
  opt_ok 4 sc -> opt_ok 4 rg -> opt_ok 4 sc' /\ opt_ok 4 rg'.
Proof.
  induction l as [|s l IH]; intros pos sc rg vs sc' rg' vs' H S R; cbn [parse_subtags] in H.
  - injection H as <- <- _. auto.
  - destruct (if Nat.eqb pos 1 then script_from_bytes s else None) as [x|] eqn:E1.
    + apply IH in H; auto. destruct (Nat.eqb pos 1); [|discriminate]. cbn. now apply script_ok in E1.
    + destruct (if Nat.leb pos 2 then region_from_bytes s else None) as [x|] eqn:E2.
      * apply IH in H; auto. destruct (Nat.leb pos 2); [|discriminate]. cbn. now apply region_ok in E2.
      * destruct (variant_from_bytes s); [|discriminate]. now apply IH in H.
Qed.
Lemma langid_ok s id : langid_from_str s = Some id -> id_ok id.
Proof.
  unfold langid_from_str. destruct (split_on _ s) as [|l rest]; [discriminate|].
  destruct (language_from_bytes l) as [lang|] eqn:L; [|discriminate].
  destruct (parse_subtags 1 None None [] rest) as [[[sc rg] vs]|] eqn:P; [|discriminate].
  intros H. injection H as <-. apply language_ok in L. apply subtags_ok in P; cbn; auto. destruct P. now repeat split.
Qed.

Lemma raw_round fuel : forall s, (List.length s <= fuel)%nat -> Forall (fun c => 0 < c < 128) s ->
  subtag_of_raw_fuel fuel (raw_of_subtag s) = s.
Proof.
  induction fuel as [|k IH]; intros [|c s] L F; try (cbn in L; lia); try reflexivity. cbn in L.
  inversion F as [|? ? C F']; subst. cbn [subtag_of_raw_fuel raw_of_subtag fold_right]. fold (raw_of_subtag s).
  destruct (N.eqb_spec (c + 256 * raw_of_subtag s) 0); [lia|].
  rewrite (N.mul_comm 256), N.mod_add by lia. rewrite (N.mod_small c) by lia.
  rewrite N.div_add by lia. rewrite (N.div_small c) by lia. rewrite N.add_0_l, IH by (auto; lia). reflexivity.
Qed.
Lemma raw_lt s : Forall (fun c => 0 < c < 128) s -> raw_of_subtag s < 256 ^ N.of_nat (List.length s).
Proof.
  induction 1 as [|c s C F IH]; [cbn; lia|]. cbn [raw_of_subtag fold_right List.length]. fold (raw_of_subtag s).
  rewrite Nat2N.inj_succ, N.pow_succ_r'. lia.
Qed.
Lemma raw_fits n s : tag_ok n s -> raw_of_subtag s < 256 ^ N.of_nat n.
Proof.
  intros [L F]. apply raw_lt in F. eapply N.lt_le_trans; [exact F|]. apply N.pow_le_mono_r; lia.
Qed.
Lemma tag_round s : tag_ok 8 s -> subtag_of_raw (raw_of_subtag s) = s.
Proof. intros [L F]. now apply raw_round. Qed.
Lemma tag_weaken n m s : (n <= m)%nat -> tag_ok n s -> tag_ok m s.
Proof. intros H [A B]. split; [lia|auto]. Qed.

(** ** Identifiers *)
Lemma read_suffixed_dec suf n : span is_digit suf = ([], suf) -> read_suffixed suf (dec_of_N n ++ suf) = Some n.
Proof.
  intros S. unfold read_suffixed.
  assert (K : span is_digit (dec_of_N n ++ suf) = (dec_of_N n, suf)).
  { destruct (dec_of_N_spec n) as (D & _). revert D. generalize (dec_of_N n). intros l D.
    induction D as [|c l C D IH]; [exact S|]. cbn [app span]. apply is_digit_iff in C. now rewrite C, IH. }
  rewrite K, bytes_eqb_refl. apply read_nat_dec.
Qed.
Definition lang_args (id : langid) : list token :=
  match gen_langid id with [_; _; TGroup DParen a] => a | _ => [] end.
Lemma gen_langid_args id : gen_langid id = [I "langid"; P "!"; Par (lang_args id)].
Proof. reflexivity. Qed.
Definition lang_known (id : langid) : Prop := li_language id <> None.
Lemma read_raw_lang l : tag_ok 8 l -> read_raw "Language" "u64" (raw_call "Language" (lit_u64_suffixed (raw_of_subtag l))) = Some l.
Proof.
  intros T. unfold raw_call, lit_u64_suffixed, read_raw, I, P, Par. cbn [andb].
  rewrite !bytes_eqb_refl. cbn [andb]. rewrite read_suffixed_dec by reflexivity. cbn [option_map]. now rewrite tag_round.
Qed.
Lemma read_raw_opt ty o : opt_ok 4 o ->
  read_opt_raw ty (match o with Some s => [I "Some"; Par (raw_call ty (lit_u32_suffixed (raw_of_subtag s)))] | None => [I "None"] end) = Some o.
Proof.
  intros T. destruct o as [s|]; [|reflexivity]. unfold read_opt_raw, I at 1, Par at 1. rewrite bytes_eqb_refl.
  unfold raw_call, lit_u32_suffixed, read_raw, I, P, Par. rewrite !bytes_eqb_refl. cbn [andb].
  rewrite read_suffixed_dec by reflexivity. cbn [option_map]. rewrite tag_round; [reflexivity|]. apply (tag_weaken 4); [lia|exact T].
Qed.
Lemma read_gen_langid id : id_ok id -> lang_known id -> read_langid (lang_args id) = Some (drop_variants id).
Proof.
  intros (L & S & R) K. destruct id as [l s r v]. unfold lang_known in K. cbn [li_language li_script li_region] in *.
  destruct l as [l|]; [|easy]. unfold lang_args, gen_langid, Par at 1. cbn [li_language li_script li_region].
  set (a := raw_call "Language" _). set (b := match s with Some _ => _ | None => _ end). set (c := match r with Some _ => _ | None => _ end).
  unfold read_langid.
  assert (FA : free (bs ",") a) by (repeat constructor).
  assert (FB : free (bs ",") b) by (destruct s; repeat constructor).
  assert (FC : free (bs ",") c) by (destruct r; repeat constructor).
  change (a ++ [P ","] ++ b ++ [P ","] ++ c) with (a ++ TPunct (bs ",") :: (b ++ TPunct (bs ",") :: c)).
  rewrite !split_app, split_free by auto. unfold a, b, c. rewrite read_raw_lang, !read_raw_opt by auto. reflexivity.
Qed.

(** ** Well-formed tokens *)
Lemma dec_wf_app n suf : forallb is_ident_cont suf = true -> wf_number (dec_of_N n ++ suf) = true.
Proof.
  intros S. destruct (dec_of_N_spec n) as (D & _ & NE & _). destruct (dec_of_N n) as [|c l]; [easy|]. cbn [app wf_number].
  assert (K : forallb is_ident_cont (c :: l) = true).
  { apply forallb_forall. intros x I. unfold Spec.digits in D. rewrite Forall_forall in D. apply D in I. apply is_digit_iff in I.
    unfold is_ident_cont, is_alnum. now rewrite I. }
  inversion D as [|? ? C _]; subst. apply is_digit_iff in C. rewrite C. change (c :: l ++ suf) with ((c :: l) ++ suf).
  now rewrite forallb_app, K, S.
Qed.
Lemma lit_wf n : wf_token (lit_u64 n).
Proof. left. rewrite <- (app_nil_r (dec_of_N n)). now apply dec_wf_app. Qed.
Lemma lit64_wf n : wf_token (lit_u64_suffixed n).
Proof. left. now apply dec_wf_app. Qed.
Lemma lit32_wf n : wf_token (lit_u32_suffixed n).
Proof. left. now apply dec_wf_app. Qed.
Lemma P_wf s : existsb (bytes_eqb (bs s)) puncts = true -> wf_token (P s).
Proof. intros H. apply existsb_exists in H as (x & I & E). apply bytes_eqb_eq in E. cbn. now rewrite E. Qed.
Lemma I_wf s : wf_ident (bs s) = true -> wf_token (I s).
Proof. intros H. exact H. Qed.
Ltac wfs := repeat first
  [ apply Forall_nil | apply Forall_cons | apply Forall_app; split
  | apply lit_wf | apply lit64_wf | apply lit32_wf
  | (apply P_wf; reflexivity) | (apply I_wf; reflexivity)
  | (apply wf_group) | assumption ].
Lemma sep_by_wf sep l : wf_tokens sep -> Forall wf_tokens l -> wf_tokens (sep_by sep l).
Proof.
  intros S F. induction F as [|x l X F IH]; [constructor|]. destruct l as [|y l]; [exact X|].
  change (sep_by sep (x :: y :: l)) with (x ++ sep ++ sep_by sep (y :: l)). apply Forall_app. split; [auto|]. apply Forall_app. auto.
Qed.
Lemma map_res_ok {A B} (f : A -> res B) l m : map_res f l = Ok m <-> Forall2 (fun a b => f a = Ok b) l m.
Proof.
  revert m. induction l as [|a l IH]; intros m; cbn [map_res].
  - split; [intros H; injection H as <-; constructor|]. intros H. now inversion H.
  - change (map_res f (a :: l)) with (rbind (f a) (fun y => rbind (map_res f l) (fun ys => Ok (y :: ys)))).
    rewrite rbind_ok. split.
    + intros (b & B1 & H). apply rbind_ok in H as (bs' & B2 & H). injection H as <-. constructor; [auto|]. now apply IH.
    + intros H. inversion H as [|? b ? bs' X Y]; subst. exists b. split; [auto|]. apply rbind_ok. exists bs'. split; [now apply IH|reflexivity].
Qed.
Lemma operand_wf o : wf_token (operand_ident o).
Proof. destruct o; reflexivity. Qed.
Lemma symbol_wf o : wf_token (get_operator_symbol o).
Proof. destruct o; unfold get_operator_symbol; apply P_wf; reflexivity. Qed.
Lemma relation_wf r ts : create_relation r = Ok ts -> wf_tokens ts.
Proof.
  unfold create_relation. destruct (convert_rangl (rel_list r)) as [vs rs] eqn:CR.
  assert (VW : Forall wf_token vs /\ Forall (fun '(a, b) => wf_token a /\ wf_token b) rs).
  { unfold convert_rangl in CR. injection CR as <- <-. split; apply Forall_flat_map, Forall_forall; intros [x|x] _; wfs. split; apply lit_wf. }
  destruct VW as [VW RW].
  destruct (match ex_modulus (rel_expr r) with Some _ => _ | None => _ end) as [mc m] eqn:M.
  assert (MW : wf_token m) by (destruct (ex_modulus (rel_expr r)); injection M as _ <-; apply lit_wf).
  pose proof (operand_wf (ex_operand (rel_expr r))) as OW. pose proof (symbol_wf (rel_op r)) as SW.
  rewrite rbind_ok. intros (rels & R & H). injection H as <-.
  assert (Z : wf_token (TLit (bs "0"))) by (now left).
  assert (K : Forall wf_tokens rels).
  { assert (W : forall X, (let? r0 := unwrap "index out of bounds" (nth_error rs 0) in
        let '(rfront, rback) := r0 in
        let '(rf, rb, whole) :=
          if is_n (ex_operand (rel_expr r)) then
            if negb mc then (dot_zero rfront, dot_zero rback, po_field (operand_ident (ex_operand (rel_expr r))))
            else ([rfront], [rback], po_field_mod (I "i") m)
          else
            ([rfront], [rback],
             if negb mc then po_field (operand_ident (ex_operand (rel_expr r))) else po_field_mod (I "i") m) in
        Ok [rf ++ [get_operator_symbol (rel_op r)] ++ whole ++ [P "&&"] ++ whole ++ [get_operator_symbol (rel_op r)] ++ rb]) = Ok X -> Forall wf_tokens X).
    { intros X H. apply rbind_ok in H as ([rf rb] & E & H). apply unwrap_ok in E. apply nth_error_In in E.
      rewrite Forall_forall in RW. specialize (RW _ E). cbn in RW. destruct RW as [RF RB].
      destruct (is_n _), mc; cbn [negb] in H; injection H as <-; unfold dot_zero, po_field, po_field_mod; wfs. }
    assert (V : forall X Y, wf_tokens X -> wf_tokens Y -> Forall wf_tokens (List.map (fun r0 =>
        let '(symbol, rval) := if is_n (ex_operand (rel_expr r)) then
             if negb mc then (X, dot_zero r0) else (po_field_mod (I "i") m, [r0])
           else ((if negb mc then X else Y), [r0]) in symbol ++ [get_operator_symbol (rel_op r)] ++ rval) vs)).
    { intros X Y XW YW. apply Forall_map. eapply Forall_impl; [|exact VW]. intros v W'. destruct (is_n _), mc; cbn [negb]; unfold dot_zero, po_field_mod; wfs. }
    assert (PF : wf_tokens (po_field (operand_ident (ex_operand (rel_expr r))))) by (unfold po_field; wfs).
    assert (PM : wf_tokens (po_field_mod (operand_ident (ex_operand (rel_expr r))) m)) by (unfold po_field_mod; wfs).
    destruct (rel_op r); try exact (W _ R); (injection R as <-; apply Forall_app; split; [exact (V _ _ PF PM)|];
      apply Forall_map; eapply Forall_impl; [|exact RW]; intros [a b] [RF RB];
      destruct (is_n _), mc; cbn [negb]; unfold po_field, po_field_mod in *; cbn [app]; wfs). }
  destruct (rel_op r); try (apply sep_by_wf; [wfs|exact K]);
   (destruct (Nat.ltb 1 (List.length rels)); [constructor; [apply wf_group|constructor]|]; apply sep_by_wf; [wfs|exact K|wfs|exact K] || (apply sep_by_wf; [wfs|exact K])).
Qed.
Lemma gen_pr_wf c ts : gen_pr c = Ok ts -> wf_tokens ts.
Proof.
  unfold gen_pr, create_condition. rewrite rbind_ok. intros (v & V & H). injection H as <-. apply map_res_ok in V.
  apply sep_by_wf; [wfs|]. induction V as [|a t l m A V IH]; constructor; auto. clear - A.
  unfold create_and_condition in A. apply rbind_ok in A as (w & W & H). injection H as <-. apply map_res_ok in W.
  constructor; [|constructor]. apply wf_group. apply sep_by_wf; [wfs|].
  induction W as [|r t l m R W IH]; constructor; auto. now apply relation_wf in R.
Qed.
Lemma gen_lang_wf r set : gen_lang_rules r = Ok set -> Forall (fun '(c, ts) => wf_tokens ts) set.
Proof.
  revert set. induction r as [|[k v] r IH]; intros set H; cbn [gen_lang_rules] in H.
  - injection H as <-. constructor.
  - apply rbind_ok in H as (cat & _ & H). apply rbind_ok in H as (c & _ & H).
    destruct (category_of_name cat); auto;
      (apply rbind_ok in H as (ts & G & H); apply rbind_ok in H as (l & L & H); injection H as <-; constructor;
       [now apply gen_pr_wf in G|auto]).
Qed.
Lemma ret_wf c : wf_token (ret c).
Proof. unfold ret. apply wf_group. wfs. destruct c; reflexivity. Qed.
Lemma create_return_wf c e : wf_tokens e -> wf_tokens (create_return c e).
Proof. intros W. destruct c; cbn [create_return]; wfs; apply ret_wf. Qed.
Lemma chain_wf set : Forall (fun '(c, ts) => wf_tokens ts) set -> wf_tokens (gen_chain set).
Proof.
  intros F. destruct set as [|[c e] rest]; [constructor; [apply ret_wf|constructor]|]. cbn [gen_chain].
  inversion F as [|? ? W F']; subst. apply Forall_app. split; [|wfs; apply ret_wf].
  assert (K : wf_tokens (create_return c e)) by now apply create_return_wf.
  revert K. generalize (create_return c e). clear - F'. induction F' as [|[c e] rest W F IH]; intros acc K; cbn [fold_left]; [auto|].
  apply IH. apply Forall_app. split; [auto|]. apply Forall_app. split; [wfs|]. now apply create_return_wf.
Qed.
Lemma langid_wf id : wf_tokens (gen_langid id).
Proof.
  unfold gen_langid, raw_call. wfs; destruct (li_language id), (li_script id), (li_region id); wfs.
Qed.
Lemma mid_wf id set : Forall (fun '(c, ts) => wf_tokens ts) set -> wf_tokens (gen_mid id set).
Proof. intros F. unfold gen_mid. constructor; [|constructor]. apply wf_group. apply Forall_app. split; [apply langid_wf|]. wfs. now apply chain_wf. Qed.
Lemma type_wf srt d ts : gen_type_rs srt d = Ok ts -> Forall wf_tokens ts.
Proof.
  unfold gen_type_rs. rewrite rbind_ok. intros (l & _ & H). apply map_res_ok in H. induction H as [|[k r] t l' m H F IH]; constructor; auto.
  apply rbind_ok in H as (set & S & H). injection H as <-. apply mid_wf. now apply gen_lang_wf in S.
Qed.
Lemma part_wf srt ds r : part_ok srt None ds r -> match r with Some s => Forall wf_tokens s | None => True end.
Proof.
  destruct ds as [|d [|]]; cbn; [now intros ->| |easy]. intros (_ & ts & T & ->). now apply type_wf in T.
Qed.
Lemma table_wf t o : match o with Some s => Forall wf_tokens s | None => True end -> wf_tokens (table_stream t o).
Proof.
  destruct o as [s|]; [|constructor]. intros F. unfold table_stream, create_pr_type. wfs; [destruct t; apply I_wf; reflexivity|].
  apply sep_by_wf; [wfs|exact F].
Qed.
Lemma string_wf s : forallb (fun x => (32 <=? x) && (x <=? 126) && negb (x =? 34)) (bs s) = true -> wf_token (TLit (34 :: bs s ++ [34])).
Proof. intros H. right. exists (bs s). auto. Qed.
Lemma file_wf num c o : match c with Some s => Forall wf_tokens s | None => True end ->
  match o with Some s => Forall wf_tokens s | None => True end -> wf_tokens (file_tokens num c o).
Proof.
  intros C O. unfold file_tokens. repeat (apply Forall_app; split); try (now apply table_wf).
  all: unfold attr, clippy_attr, ignore_noncritical_errors, use_statements, plural_function, version_item, langid_macro, clippy_attr, attr.
  all: repeat first [ progress wfs | apply string_wf; reflexivity ].
Qed.
Lemma generate_lex srt jsons out : generate_rs srt jsons = Ok out ->
  exists rs v num c o, inputs_are jsons rs /\ gen_ok srt rs v num c o /\ lex out = Some (file_tokens num c o).
Proof.
  intros H. apply generate_ok in H as (rs & v & num & c & o & I & G & ->). exists rs, v, num, c, o. split; [auto|]. split; [auto|].
  apply lex_print. apply file_wf; [exact (part_wf _ _ _ (ok_cardinal _ _ _ _ _ _ G))|exact (part_wf _ _ _ (ok_ordinal _ _ _ _ _ _ G))].
Qed.
End Width.
