(** * The samples in the CLDR data (C76) *)
From Coq Require Import Lia ZifyBool ZifyN ZifyNat.
From Verif Require Import Base LangId GenRs Json Ast Spec DigitFacts Cldr PluralRules Tables ApiProps GenMeaning Represents
  Conformance ConformanceProps Exclusive Operands SampleSpec.
Open Scope N_scope.

(** ** Enumerating the samples of a text *)
Definition is_separator (c : N) : bool := (c =? 32) || (c =? 44) || (c =? 64).
Fixpoint split_words (cur s : bytes) : list bytes :=
  match s with
  | [] => [rev' cur]
  | c :: r => if is_separator c then rev' cur :: split_words [] r else split_words (c :: cur) r
  end.
Fixpoint after_at (s : bytes) : bytes :=
  match s with [] => [] | c :: r => if c =? 64 then r else after_at r end.
Fixpoint cut (c : N) (s : bytes) : bytes * option bytes :=
  match s with
  | [] => ([], None)
  | x :: r => if x =? c then ([], Some r) else let (a, b) := cut c r in (x :: a, b)
  end.
Definition is_digit' (c : N) : bool := (48 <=? c) && (c <=? 57).
Definition drop_minus (w : bytes) : bytes := match w with c :: r => if c =? 45 then r else w | [] => [] end.
(** digits read as one number, and how many are after the point *)
Definition read_numeral (w : bytes) : option (N * nat) :=
  let (i, f) := cut 46 (drop_minus w) in
  match f with
  | None => if forallb is_digit' i && negb (Nat.eqb (List.length i) 0) then Some (dval i, O) else None
  | Some f => if forallb is_digit' i && forallb is_digit' f && negb (Nat.eqb (List.length i) 0) && negb (Nat.eqb (List.length f) 0)
              then Some (dval (i ++ f), List.length f) else None
  end.
Fixpoint fraction (v : nat) (k : N) : list N :=
  match v with O => [] | S v => k / 10 ^ N.of_nat v mod 10 :: fraction v k end.
Definition decimal_with (v : nat) (k : N) : decimal := mkDecimal (k / 10 ^ N.of_nat v) (fraction v k).
Fixpoint count_from (n : nat) (k : N) : list N := match n with O => [] | S n => k :: count_from n (k + 1) end.
Definition expand (w : bytes) : list decimal :=
  match cut 126 w with
  | (a, None) => match read_numeral a with Some (k, v) => [decimal_with v k] | None => [] end
  | (a, Some b) =>
    match read_numeral a, read_numeral b with
    | Some (k, v), Some (l, _) => List.map (decimal_with v) (count_from (N.to_nat (l + 1 - k)) k)
    | _, _ => []
    end
  end.
Definition samples_of (text : bytes) : list decimal := flat_map expand (split_words [] (after_at text)).

Lemma separator_iff c : is_separator c = true <-> separator c.
Proof. unfold is_separator, separator. rewrite !Bool.orb_true_iff, !N.eqb_eq. tauto. Qed.
Lemma split_here w b : Forall (fun c => ~ separator c) w -> (b = [] \/ exists c b', b = c :: b' /\ separator c) ->
  forall cur, In (rev cur ++ w) (split_words cur (w ++ b)).
Proof.
  intros F B. induction F as [|c w N F IH]; intros cur; cbn [app].
  - rewrite app_nil_r. destruct B as [->|(c & b' & -> & S)]; cbn [split_words].
    + left. symmetry. apply rev_alt.
    + rewrite (proj2 (separator_iff c) S). left. symmetry. apply rev_alt.
  - cbn [split_words]. destruct (is_separator c) eqn:E; [now apply separator_iff in E|].
    specialize (IH (c :: cur)). cbn [rev] in IH. now rewrite <- app_assoc in IH.
Qed.
Lemma split_later c s w : separator c -> In w (split_words [] s) -> forall a cur, In w (split_words cur (a ++ c :: s)).
Proof.
  intros S I. induction a as [|x a IH]; intros cur; cbn [app split_words].
  - rewrite (proj2 (separator_iff c) S). now right.
  - destruct (is_separator x); [right|]; apply IH.
Qed.
Lemma word_split s w : word_of s w -> In w (split_words [] s).
Proof.
  intros (a & b & -> & F & [->|(a' & c & -> & S)] & B).
  - exact (split_here w b F B []).
  - rewrite <- app_assoc. cbn [app]. apply split_later; [exact S|]. exact (split_here w b F B []).
Qed.
Lemma after_split before after w : word_of after w -> In w (split_words [] (after_at (before ++ bs "@" ++ after))).
Proof.
  intros W. apply word_split in W. induction before as [|x l IH].
  - exact W.
  - cbn [app after_at]. destruct (N.eqb_spec x 64) as [->|N]; [|exact IH].
    apply split_later; [right; right; reflexivity|exact W].
Qed.
Lemma cut_none c s : ~ In c s -> cut c s = (s, None).
Proof.
  induction s as [|x s IH]; intros N; [reflexivity|]. cbn. destruct (N.eqb_spec x c) as [->|E]; [elim N; now left|].
  rewrite IH; [reflexivity|]. intros K. apply N. now right.
Qed.
Lemma cut_some c a b : ~ In c a -> cut c (a ++ c :: b) = (a, Some b).
Proof.
  induction a as [|x s IH]; intros N; cbn; [now rewrite N.eqb_refl|].
  destruct (N.eqb_spec x c) as [->|E]; [elim N; now left|].
  rewrite IH; [reflexivity|]. intros K. apply N. now right.
Qed.
Lemma digits_not c s : digits s -> ~ digit_char c -> ~ In c s.
Proof. unfold digits. rewrite Forall_forall. intros D N I. now apply N, D. Qed.
Lemma digits_check s : digits s -> forallb is_digit' s = true.
Proof.
  unfold digits. rewrite Forall_forall, forallb_forall. intros D x I. specialize (D x I).
  unfold digit_char, is_digit' in *. lia.
Qed.

Lemma frac_dval f : digits f -> frac_value (List.map (fun c => c - 48) f) = dval f.
Proof.
  induction f as [|c f IH]; intros D; [reflexivity|]. apply digits_cons in D as [_ D]. cbn [List.map frac_value].
  rewrite map_length, IH by exact D. change (c :: f) with ([c] ++ f). rewrite dval_app.
  assert (V : dval [c] = c - 48) by (cbn; lia). now rewrite V.
Qed.
Lemma numeral_num i f : digits f ->
  let d := mkDecimal (dval i) (List.map (fun c => c - 48) f) in
  uts_num d = dval (i ++ f) /\ uts_v d = N.of_nat (List.length f).
Proof.
  intros D. cbv zeta. unfold uts_num, uts_den, uts_v, uts_f. cbn [d_int d_frac]. rewrite map_length. split; [|reflexivity].
  now rewrite frac_dval, dval_app.
Qed.
Lemma read_numeral_complete w d : numeral w d -> read_numeral w = Some (uts_num d, N.to_nat (uts_v d)).
Proof.
  intros (sg & i & f & S & Di & Ni & Df & -> & ->). destruct (numeral_num i f Df) as [-> ->].
  rewrite Nat2N.id. unfold read_numeral.
  assert (M : forall z, drop_minus (sg ++ i ++ z) = i ++ z).
  { intros z. destruct S as [->| ->]; [|reflexivity]. cbn [app]. destruct i as [|c i]; [easy|]. apply digits_cons in Di as [Dc _].
    cbn [app drop_minus]. unfold digit_char in Dc. destruct (N.eqb_spec c 45); [lia|reflexivity]. }
  assert (NZ : Nat.eqb (List.length i) 0 = false) by (destruct i; [easy|reflexivity]).
  rewrite M. assert (N46 : ~ In 46 i) by (apply digits_not; [exact Di|unfold digit_char; lia]).
  destruct f as [|c f].
  - rewrite !app_nil_r, cut_none by exact N46. now rewrite (digits_check i Di), NZ.
  - rewrite cut_some by exact N46. now rewrite (digits_check i Di), (digits_check _ Df), NZ.
Qed.
Lemma fraction_ok l : Forall (fun x => x < 10) l -> forall j, fraction (List.length l) (j * 10 ^ N.of_nat (List.length l) + frac_value l) = l.
Proof.
  induction 1 as [|x l H F IH]; intros j; [reflexivity|]. cbn [List.length fraction frac_value].
  pose proof (frac_value_lt l F) as B. set (p := 10 ^ N.of_nat (List.length l)) in *.
  assert (P : 10 ^ N.of_nat (S (List.length l)) = 10 * p) by (rewrite Nat2N.inj_succ; apply N.pow_succ_r').
  rewrite P. replace (j * (10 * p) + (x * p + frac_value l)) with (frac_value l + (j * 10 + x) * p) by ring.
  rewrite N.div_add, N.div_small by lia. rewrite N.add_0_l.
  replace (j * 10 + x) with (x + j * 10) by ring. rewrite N.mod_add, N.mod_small by lia.
  f_equal. replace (frac_value l + (x + j * 10) * p) with ((x + j * 10) * p + frac_value l) by ring. apply IH.
Qed.
Lemma decimal_with_ok d : proper d -> decimal_with (N.to_nat (uts_v d)) (uts_num d) = d.
Proof.
  intros P. destruct d as [i l]. unfold decimal_with, uts_num, uts_den, uts_v, uts_f, proper in *. cbn [d_int d_frac] in *.
  rewrite Nat2N.id, fraction_ok by exact P. f_equal. pose proof (frac_value_lt l P).
  rewrite N.add_comm, N.div_add, N.div_small by lia. lia.
Qed.
Lemma count_in n : forall k x, k <= x < k + N.of_nat n -> In x (count_from n k).
Proof.
  induction n as [|n IH]; intros k x H; [lia|]. cbn [count_from].
  destruct (N.eq_dec x k) as [->|N]; [now left|right]. apply IH. lia.
Qed.
Lemma numeral_no_tilde w d : numeral w d -> ~ In 126 w.
Proof.
  intros (sg & i & f & S & Di & Ni & Df & -> & _) I.
  apply in_app_or in I as [I|I]; [destruct S as [->| ->]; [easy|]; destruct I as [I|[]]; discriminate|].
  apply in_app_or in I as [I|I]; [revert I; apply digits_not; [exact Di|unfold digit_char; lia]|].
  destruct f as [|c f]; [easy|]. destruct I as [I|I]; [discriminate|].
  revert I. apply digits_not; [exact Df|unfold digit_char; lia].
Qed.
Lemma expand_complete w d : stands_for w d -> In d (expand w).
Proof.
  intros [N|(a & b & x & y & -> & A & B & V & _ & P & L)]; unfold expand.
  - rewrite cut_none by now apply (numeral_no_tilde w d). rewrite (read_numeral_complete w d N).
    left. apply decimal_with_ok. exact (numeral_proper w d N).
  - change (a ++ bs "~" ++ b) with (a ++ 126 :: b). rewrite cut_some by now apply (numeral_no_tilde a x).
    rewrite (read_numeral_complete a x A), (read_numeral_complete b y B).
    apply in_map_iff. exists (uts_num d). rewrite <- V. split; [now apply decimal_with_ok|].
    apply count_in. lia.
Qed.
Lemma samples_complete text d : sample text d -> In d (samples_of text).
Proof.
  intros (before & after & w & -> & W & S). unfold samples_of. apply in_flat_map. exists w.
  split; [now apply after_split|now apply expand_complete].
Qed.

(** conversely, what is enumerated for a word without '~' is a sample *)
Lemma split_sound w s : forall cur, Forall (fun c => ~ separator c) cur -> In w (split_words cur s) ->
  (exists w' b, w = rev cur ++ w' /\ s = w' ++ b /\ Forall (fun c => ~ separator c) w' /\
     (b = [] \/ exists c b', b = c :: b' /\ separator c)) \/
  (exists a c b, s = a ++ [c] ++ w ++ b /\ separator c /\ Forall (fun c => ~ separator c) w /\
     (b = [] \/ exists c b', b = c :: b' /\ separator c)).
Proof.
  induction s as [|x s IH]; intros cur F I; cbn [split_words] in I.
  - destruct I as [<-|[]]. left. exists [], []. rewrite app_nil_r. unfold rev'. rewrite <- rev_alt. auto.
  - destruct (is_separator x) eqn:E.
    + apply separator_iff in E. destruct I as [<-|I].
      * left. exists [], (x :: s). rewrite app_nil_r. unfold rev'. rewrite <- rev_alt. split; [reflexivity|]. split; [reflexivity|].
        split; [constructor|]. right. eauto.
      * right. destruct (IH [] ltac:(constructor) I) as [(w' & b & -> & -> & Fw & B)|(a & c & b & -> & S & Fw & B)].
        -- exists [], x, b. auto.
        -- exists (x :: a), c, b. auto.
    + assert (NS : ~ separator x) by (intros K; apply separator_iff in K; congruence).
      destruct (IH (x :: cur) ltac:(now constructor) I) as [(w' & b & -> & -> & Fw & B)|(a & c & b & -> & S & Fw & B)].
      * left. exists (x :: w'), b. cbn [rev]. rewrite <- app_assoc. split; [reflexivity|]. split; [reflexivity|].
        split; [now constructor|exact B].
      * right. exists (x :: a), c, b. auto.
Qed.
Lemma split_word s w : In w (split_words [] s) -> word_of s w.
Proof.
  intros I. destruct (split_sound w s [] ltac:(constructor) I) as [(w' & b & -> & -> & F & B)|(a & c & b & -> & S & F & B)].
  - exists [], b. cbn [rev app]. auto.
  - exists (a ++ [c]), b. rewrite <- app_assoc. split; [reflexivity|]. split; [exact F|]. split; [right; eauto|exact B].
Qed.
Lemma cut_none_eq c s a : cut c s = (a, None) -> s = a.
Proof.
  revert a. induction s as [|x s IH]; intros a; cbn; [intros H; now injection H|].
  destruct (x =? c); [discriminate|]. destruct (cut c s) as [a' b]. intros H. injection H as <- ->. f_equal. now apply IH.
Qed.
Lemma cut_some_eq c s a b : cut c s = (a, Some b) -> s = a ++ c :: b.
Proof.
  revert a. induction s as [|x s IH]; intros a; cbn; [discriminate|].
  destruct (N.eqb_spec x c) as [->|N]; [intros H; injection H as <- <-; reflexivity|].
  destruct (cut c s) as [a' b']. intros H. injection H as <- ->. cbn [app]. f_equal. now apply IH.
Qed.
Lemma digits_checked s : forallb is_digit' s = true -> digits s.
Proof.
  unfold digits. rewrite Forall_forall, forallb_forall. intros D x I. specialize (D x I).
  unfold digit_char, is_digit' in *. lia.
Qed.
Lemma digit_values f : digits f -> Forall (fun x => x < 10) (List.map (fun c => c - 48) f).
Proof. induction 1 as [|c f D F IH]; constructor; [unfold digit_char in D; lia|exact IH]. Qed.
Lemma drop_minus_eq w : exists sg, minus_opt sg /\ w = sg ++ drop_minus w.
Proof.
  destruct w as [|c r]; [exists []; split; [now left|reflexivity]|]. cbn [drop_minus].
  destruct (N.eqb_spec c 45) as [->|N]; [exists [45]; split; [now right|reflexivity]|exists []; split; [now left|reflexivity]].
Qed.
Lemma read_numeral_sound w k v : read_numeral w = Some (k, v) -> numeral w (decimal_with v k).
Proof.
  unfold read_numeral. destruct (drop_minus_eq w) as (sg & S & E).
  destruct (cut 46 (drop_minus w)) as [i [f|]] eqn:C.
  - apply cut_some_eq in C. destruct (_ && _) eqn:B; [|discriminate]. intros H. injection H as <- <-.
    apply andb_prop in B as [B Nf]. apply andb_prop in B as [B Ni]. apply andb_prop in B as [Di Df].
    apply digits_checked in Di, Df. exists sg, i, f. rewrite C in E.
    split; [exact S|]. split; [exact Di|]. split; [intros ->; discriminate|]. split; [exact Df|].
    split; [destruct f; [discriminate|exact E]|].
    destruct (numeral_num i f Df) as [En Ev]. rewrite <- En.
    replace (List.length f) with (N.to_nat (uts_v (mkDecimal (dval i) (List.map (fun c => c - 48) f)))) by (rewrite Ev; lia).
    apply decimal_with_ok. now apply digit_values.
  - apply cut_none_eq in C. destruct (_ && _) eqn:B; [|discriminate]. intros H. injection H as <- <-.
    apply andb_prop in B as [Di Ni]. apply digits_checked in Di. exists sg, i, []. rewrite C in E.
    split; [exact S|]. split; [exact Di|]. split; [intros ->; discriminate|]. split; [constructor|].
    split; [now rewrite app_nil_r|]. unfold decimal_with. cbn [N.of_nat fraction List.map]. now rewrite N.div_1_r.
Qed.
Definition plain_samples (text : bytes) : list (bytes * decimal) :=
  flat_map (fun w => match read_numeral w with Some (k, v) => [(w, decimal_with v k)] | None => [] end)
    (split_words [] (after_at text)).
Lemma after_at_eq text : after_at text = [] \/ exists before, text = before ++ bs "@" ++ after_at text.
Proof.
  induction text as [|c r IH]; [now left|]. cbn [after_at]. destruct (N.eqb_spec c 64) as [->|N].
  - right. now exists [].
  - destruct IH as [IH|(b & IH)]; [now left|right]. exists (c :: b). cbn [app]. now rewrite <- IH.
Qed.
Lemma plain_sample text w d : In (w, d) (plain_samples text) -> sample text d /\ numeral w d.
Proof.
  intros I. apply in_flat_map in I as (w' & I & J). destruct (read_numeral w') as [[k v]|] eqn:R; [|easy].
  destruct J as [J|[]]. injection J as -> <-. pose proof (read_numeral_sound w k v R) as Nu. split; [|exact Nu].
  destruct (after_at_eq text) as [E|(b & E)].
  - rewrite E in I. cbn in I. destruct I as [<-|[]]. discriminate R.
  - exists b, (after_at text), w. split; [exact E|]. split; [now apply split_word|now left].
Qed.

(** ** Checking the samples of the data *)
Definition smallb (d : decimal) : bool := (uts_num d <? 2 ^ 53) && (uts_v d <=? 307).
Definition sample_ok (t : pr_type) (id : langid) (rules : list (category * condition)) (c : category) (d : decimal) : bool :=
  cldr_selectb rules d c && smallb d && (negb (mem id (fraction_wrong t)) || integral d).
Definition text_ok t id rules (r : bytes * bytes) : bool :=
  match named_category (fst r) with
  | Some c => forallb (sample_ok t id rules c) (samples_of (snd r))
  | None => true
  end.
Definition entry_ok t (e : bytes * bmap bytes) : bool :=
  match langid_from_str (fst e) with
  | Some id => match find_rules t id with Some rules => forallb (text_ok t id rules) (snd e) | None => false end
  | None => true
  end.
Definition data_ok t : bool :=
  match rule_map_of t (cldr_json t) with Some m => forallb (entry_ok t) m | None => false end.
Lemma data_ok_true t : data_ok t = true.
Proof. destruct t; vm_compute; reflexivity. Qed.

Lemma samples_ok t m key rs id name text c d :
  rule_map_of t (cldr_json t) = Some m -> In (key, rs) m -> langid_from_str key = Some id ->
  In (name, text) rs -> named_category name = Some c -> sample text d ->
  exists rules, In (id, rules) (cldr t) /\ sample_ok t id rules c d = true.
Proof.
  intros M I L J Nm S. pose proof (data_ok_true t) as H. unfold data_ok in H. rewrite M in H.
  rewrite forallb_forall in H. specialize (H _ I). unfold entry_ok in H. cbn [fst snd] in H. rewrite L in H.
  destruct (find_rules t id) as [rules|] eqn:F; [|discriminate]. exists rules. split; [now apply find_rules_in|].
  rewrite forallb_forall in H. specialize (H _ J). unfold text_ok in H. cbn [fst snd] in H. rewrite Nm in H.
  rewrite forallb_forall in H. apply H. now apply samples_complete.
Qed.
Lemma C76_cldr t m key rs id name text c d :
  rule_map_of t (cldr_json t) = Some m -> In (key, rs) m -> langid_from_str key = Some id ->
  In (name, text) rs -> named_category name = Some c -> sample text d ->
  exists rules, In (id, rules) (cldr t) /\ cldr_select rules d c.
Proof.
  intros M I L J Nm S. destruct (samples_ok t m key rs id name text c d M I L J Nm S) as (rules & K & O).
  exists rules. split; [exact K|]. apply cldr_selectb_iff. unfold sample_ok in O.
  apply andb_prop in O as [O _]. now apply andb_prop in O as [O _].
Qed.
Lemma C76_select how w t m key rs id name text c d s pr :
  rule_map_of t (cldr_json t) = Some m -> In (key, rs) m -> langid_from_str key = Some id ->
  In (name, text) rs -> named_category name = Some c -> sample text d ->
  numeral s d -> create how id t = Ok pr -> ~ In id (integer_wrong t) -> select w pr (InStr s) = Ok c.
Proof.
  intros M I L J Nm S Nu C NI. destruct (samples_ok t m key rs id name text c d M I L J Nm S) as (rules & K & O).
  unfold sample_ok in O. apply andb_prop in O as [O Fr]. apply andb_prop in O as [O Sm].
  apply cldr_selectb_iff in O.
  destruct (follows_str how id t pr w s d C Nu) as (rules' & c' & K' & E & O'); auto.
  - unfold smallb in Sm. split; lia.
  - intros Fw. apply mem_in in Fw. now rewrite Fw in Fr.
  - rewrite E. f_equal. assert (rules' = rules) as ->.
    { exact (cldr_unique t id rules' rules K' K). }
    apply (C33_unique t id rules d c' c K); auto. exact (numeral_proper s d Nu).
Qed.

(** for each of the others a sample with another category *)
Definition sample_wrong (t : pr_type) (id : langid) : Prop :=
  exists m key rs name text c d s pr c',
    rule_map_of t (cldr_json t) = Some m /\ In (key, rs) m /\ langid_from_str key = Some id /\
    In (name, text) rs /\ named_category name = Some c /\ sample text d /\ numeral s d /\
    create Halving id t = Ok pr /\ select W64 pr (InStr s) = Ok c' /\ c' <> c.
Definition first_wrong (pr : plural_rules) (c : category) (text : bytes) : bool :=
  existsb (fun '(w, d) => match select W64 pr (InStr w) with Ok c' => negb (cat_eqb c' c) | _ => false end) (plain_samples text).
Definition entry_wrong t (id : langid) (e : bytes * bmap bytes) : bool :=
  match langid_from_str (fst e) with
  | Some l => langid_eqb l id &&
    match create Halving id t with
    | Ok pr => existsb (fun r => match named_category (fst r) with Some c => first_wrong pr c (snd r) | None => false end) (snd e)
    | _ => false
    end
  | None => false
  end.
Definition all_wrong t : bool :=
  match rule_map_of t (cldr_json t) with
  | Some m => forallb (fun id => existsb (entry_wrong t id) m) (integer_wrong t)
  | None => false
  end.
Lemma all_wrong_true t : all_wrong t = true.
Proof. destruct t; vm_compute; reflexivity. Qed.
Lemma C76_wrong t id : In id (integer_wrong t) -> sample_wrong t id.
Proof.
  intros I. pose proof (all_wrong_true t) as H. unfold all_wrong in H.
  destruct (rule_map_of t (cldr_json t)) as [m|] eqn:M; [|discriminate].
  rewrite forallb_forall in H. specialize (H id I). apply existsb_exists in H as ([key rs] & J & H).
  unfold entry_wrong in H. cbn [fst snd] in H. destruct (langid_from_str key) as [l|] eqn:L; [|discriminate].
  apply andb_prop in H as [El H]. apply langid_eqb_eq in El. subst l.
  destruct (create Halving id t) as [pr| |] eqn:C; try discriminate.
  apply existsb_exists in H as ([name text] & K & H). cbn [fst snd] in H.
  destruct (named_category name) as [c|] eqn:Nc; [|discriminate]. unfold first_wrong in H.
  apply existsb_exists in H as ([w d] & Q & H). apply plain_sample in Q as [Sa Nu].
  destruct (select W64 pr (InStr w)) as [c'| |] eqn:Se; try discriminate.
  exists m, key, rs, name, text, c, d, w, pr, c'. repeat split; auto.
  intros ->. now rewrite (proj2 (cat_eqb_eq c c) eq_refl) in H.
Qed.
