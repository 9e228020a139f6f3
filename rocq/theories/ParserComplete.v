(** * The rule parser accepts every text of the grammar *)
From Coq Require Import Lia.
From Verif Require Import Base Nom Ast CldrParser Spec DigitFacts Grammar ParserFacts.
Open Scope N_scope.

Section Width.
Context {ptr : ptr_width}.

(** ** What may follow *)
Definition no_blank (s : bytes) : Prop := forall c r, s = c :: r -> is_space c = false.
Definition no_digit (s : bytes) : Prop := forall c r, s = c :: r -> is_digit c = false.
(** neither a digit nor a period *)
Definition fol_number (s : bytes) : Prop := forall c r, s = c :: r -> is_digit c = false /\ c <> 46.

Lemma fol_no_digit s : fol_number s -> no_digit s.
Proof. intros F c r E. now apply (F c r). Qed.

Lemma space0_app b r : blanks b -> no_blank r -> space0 (b ++ r) = PO r b.
Proof. intros B N. unfold space0. rewrite span_app; [reflexivity|now apply blanks_forallb|auto]. Qed.
Lemma space1_app b r : blanks1 b -> no_blank r -> space1 (b ++ r) = PO r b.
Proof.
  intros [B NE] N. unfold space1. rewrite span_app; [|now apply blanks_forallb|auto].
  destruct b; [easy|reflexivity].
Qed.
Lemma blank_head b r c s : blanks1 b -> b ++ r = c :: s -> is_space c = true.
Proof. intros [B NE] E. destruct b as [|x b]; [easy|]. injection E as -> _. inversion B. now apply is_space_iff. Qed.
Lemma fol_blank b r : blanks1 b -> fol_number (b ++ r).
Proof.
  intros B c s E. apply (blank_head b r c s B) in E. apply is_space_iff in E as [->| ->]; split; easy.
Qed.
Lemma fol_blank0 b r : blanks b -> fol_number r -> fol_number (b ++ r).
Proof. intros B F. destruct b as [|x b]; [exact F|]. apply fol_blank. now split. Qed.
Lemma no_blank_cons c r : is_space c = false -> no_blank (c :: r).
Proof. intros H d s E. now injection E as -> _. Qed.
Lemma fol_cons c r : is_digit c = false -> c <> 46 -> fol_number (c :: r).
Proof. intros H H2 d s E. now injection E as -> _. Qed.

(** texts that start with a digit *)
Definition digit_head (s : bytes) : Prop := exists c r, s = c :: r /\ is_digit c = true.
Lemma digit_head_blank s r : digit_head s -> no_blank (s ++ r).
Proof.
  intros (c & t & -> & D). apply no_blank_cons. unfold is_digit, is_space in *. 
  apply andb_prop in D as [A B]. apply N.leb_le in A, B.
  destruct (N.eqb_spec c 32), (N.eqb_spec c 9); try reflexivity; lia.
Qed.
Lemma digit_head_app s r : digit_head s -> digit_head (s ++ r).
Proof. intros (c & t & -> & D). exists c, (t ++ r). auto. Qed.
Lemma value_head k s : g_value k s -> digit_head s.
Proof.
  intros (D & N & _). destruct s as [|c s]; [easy|]. apply digits_cons in D as [D _].
  exists c, s. split; [reflexivity|]. unfold digit_char, is_digit in *. apply andb_true_intro. split; apply N.leb_le; lia.
Qed.
Lemma item_head it s : g_item it s -> digit_head s.
Proof. intros [k t G|lo up t u G _]; [now apply (value_head k)|apply digit_head_app; now apply (value_head lo)]. Qed.
Lemma sep_list_start {A} sep (g : A -> bytes -> Prop) l s : sep_list sep g l s -> exists a t r, g a t /\ s = t ++ r.
Proof. intros [a t G|a t p l' u G _ _]; [exists a, t, []; now rewrite app_nil_r|eauto]. Qed.
Lemma list_head l s : g_list l s -> digit_head s.
Proof. intros H. apply sep_list_start in H as (a & t & r & G & ->). apply digit_head_app. now apply (item_head a). Qed.
Lemma head_nonempty s : digit_head s -> s <> [].
Proof. now intros (c & r & -> & _). Qed.

(** ** Numbers and lists *)
Lemma value_complete k s rest : g_value k s -> no_digit rest -> p_value (s ++ rest) = PO rest k.
Proof.
  intros (D & N & -> & B) F. unfold p_value, pmap_res, digit1, pbind.
  rewrite span_app; [|now apply digits_forallb|auto]. destruct s as [|c s]; [easy|].
  now rewrite usize_from_str_digits.
Qed.
Lemma tag_miss t c r : (match t with x :: _ => x =? c | [] => true end) = false -> tag t (c :: r) = PE.
Proof. unfold tag. destruct t as [|x t]; [discriminate|]. cbn [strip]. now intros ->. Qed.
Lemma tag_other x t c r : c <> x -> tag (x :: t) (c :: r) = PE.
Proof. intros H. apply tag_miss. apply N.eqb_neq. auto. Qed.
Lemma tag_nil x t : tag (x :: t) [] = PE.
Proof. reflexivity. Qed.

Lemma item_complete it s rest : g_item it s -> fol_number rest -> p_range_list_item (s ++ rest) = PO rest it.
Proof.
  intros G F. unfold p_range_list_item, palt, p_range, pmap, separated_pair, pbind. destruct G as [k s G|lo up s t G1 G2].
  - rewrite (value_complete k s rest G) by now apply fol_no_digit.
    assert (T : tag (bs "..") rest = PE).
    { destruct rest as [|c r]; [reflexivity|]. destruct (F c r eq_refl) as [_ N].
      now apply (tag_other 46). }
    now rewrite T.
  - rewrite <- !app_assoc. rewrite (value_complete lo s _ G1) by (intros c r E; now injection E as <- _).
    rewrite tag_app. now rewrite (value_complete up t rest G2) by now apply fol_no_digit.
Qed.

Lemma comma_complete q s rest : comma q -> no_blank (s ++ rest) -> exists x, p_comma (q ++ s ++ rest) = PO (s ++ rest) x.
Proof.
  intros (b1 & b2 & B1 & B2 & ->) N. unfold p_comma, pseq, pbind. rewrite <- !app_assoc.
  rewrite (space0_app b1) by (auto; intros c r E; now injection E as <- _).
  rewrite tag_app, (space0_app b2) by auto. eauto.
Qed.
Lemma comma_nonempty q : comma q -> q <> [].
Proof. intros (b1 & b2 & _ & _ & ->) E. apply app_eq_nil in E as [_ E]. discriminate. Qed.
Lemma comma_fol q r : comma q -> fol_number (q ++ r).
Proof.
  intros (b1 & b2 & B1 & _ & ->). rewrite <- !app_assoc. apply fol_blank0; [auto|]. now apply fol_cons.
Qed.
Lemma word_complete w q s rest : word w q -> no_blank (w ++ []) -> w <> [] -> no_blank (s ++ rest) ->
  exists x, p_word w (q ++ s ++ rest) = PO (s ++ rest) x.
Proof.
  intros (b1 & b2 & B1 & B2 & ->) NW NE N. unfold p_word, pseq, pbind. rewrite <- !app_assoc.
  assert (NW' : no_blank (w ++ b2 ++ s ++ rest)).
  { destruct w as [|x w]; [easy|]. intros c r E. injection E as <- _. apply (NW x (w ++ [])). reflexivity. }
  rewrite (space1_app b1) by auto.
  rewrite tag_app, (space1_app b2) by auto. eauto.
Qed.
Lemma word_nonempty w q : word w q -> q <> [].
Proof. intros (b1 & b2 & [_ B1] & _ & ->) E. apply app_eq_nil in E as [E _]. easy. Qed.

(** what comes after blanks does not start a comma or a word *)
Lemma comma_miss b c r : blanks b -> is_space c = false -> c <> 44 -> p_comma (b ++ c :: r) = PE.
Proof.
  intros B C N. unfold p_comma, pseq, pbind. rewrite space0_app by (auto; now apply no_blank_cons).
  assert (T : tag (bs ",") (c :: r) = PE) by now apply (tag_other 44). now rewrite T.
Qed.
Lemma word_miss w b c r : blanks b -> is_space c = false -> strip w (c :: r) = None -> p_word w (b ++ c :: r) = PE.
Proof.
  intros B C N. unfold p_word, pseq, pbind. destruct b as [|x b].
  - cbn [app]. unfold space1. cbn [span]. now rewrite C.
  - rewrite space1_app by (split; [auto|easy] || now apply no_blank_cons).
    unfold tag. now rewrite N.
Qed.

Definition fol_list (rest : bytes) : Prop := fol_number rest /\ p_comma rest = PE.
Lemma list_complete l s rest : g_list l s -> fol_list rest -> p_range_list (s ++ rest) = PO rest l.
Proof.
  intros G [F C]. unfold p_range_list.
  apply (separated_complete p_comma p_range_list_item comma g_item fol_number); auto.
  - intros q a t r Q I. apply comma_complete; [auto|]. apply digit_head_blank. now apply (item_head a).
  - intros a t r I K. now apply item_complete.
  - intros a t I. apply head_nonempty. now apply (item_head a).
  - intros q a t r Q I. now apply comma_fol.
  - apply comma_nonempty.
  - now left.
Qed.

(** ** Relations *)
Lemma operand_complete o rest : p_operand (operand_text o ++ rest) = PO rest o.
Proof. destruct o; reflexivity. Qed.

(** the first character of an operator *)
Definition op_head (s : bytes) : Prop := exists c r, s = c :: r /\ In c [61; 33; 105; 110; 119].
Lemma op_starts o s : g_op o s -> op_head s.
Proof. intros []; eexists _, _; (split; [reflexivity|cbn; tauto]). Qed.
Lemma op_head_app s r : op_head s -> op_head (s ++ r).
Proof. intros (c & t & -> & D). exists c, (t ++ r). auto. Qed.
Lemma op_head_blank s : op_head s -> no_blank s.
Proof. intros (c & r & -> & I). apply no_blank_cons. cbn in I. repeat (destruct I as [<-|I]; [reflexivity|]). destruct I. Qed.
Lemma op_head_fol s : op_head s -> fol_number s.
Proof. intros (c & r & -> & I). cbn in I. repeat (destruct I as [<-|I]; [now apply fol_cons|]). destruct I. Qed.
Lemma op_head_no_mod s : op_head s -> palt (tag (bs "mod")) (tag (bs "%")) s = PE.
Proof. intros (c & r & -> & I). cbn in I. repeat (destruct I as [<-|I]; [reflexivity|]). destruct I. Qed.

Lemma expression_complete e s b rest : g_expr e s -> blanks b -> op_head rest ->
  p_expression (s ++ b ++ rest) = PO (b ++ rest) e.
Proof.
  intros G B O. unfold p_expression, pmap, p_mod_expression. destruct G as [o|o b1 w b2 k s B1 W B2 G].
  - unfold pseq at 1. unfold pbind. rewrite operand_complete. unfold popt, preceded, pseq, pbind.
    rewrite space0_app by (auto using op_head_blank). now rewrite op_head_no_mod.
  - unfold pseq at 1. unfold pbind. rewrite <- !app_assoc, operand_complete. unfold popt, preceded, pseq, pbind.
    assert (NB : no_blank (w ++ b2 ++ s ++ b ++ rest)).
    { destruct W as [->| ->]; now apply no_blank_cons. }
    rewrite space0_app by auto.
    assert (M : palt (tag (bs "mod")) (tag (bs "%")) (w ++ b2 ++ s ++ b ++ rest) = PO (b2 ++ s ++ b ++ rest) w).
    { unfold palt. destruct W as [->| ->]; [now rewrite tag_app|]. rewrite tag_app. reflexivity. }
    rewrite M, space1_app by (auto; apply digit_head_blank; eapply value_head; eauto).
    rewrite (value_complete k s (b ++ rest) G); [reflexivity|].
    apply fol_no_digit, fol_blank0; auto using op_head_fol.
Qed.

Lemma not_miss s r : digit_head s -> tag (bs "not") (s ++ r) = PE.
Proof.
  intros (c & t & -> & D). apply (tag_other 110). unfold is_digit in D. apply andb_prop in D as [A B].
  apply N.leb_le in A, B. lia.
Qed.

Lemma operator_complete o os b ls rest : g_op o os -> blanks b -> (o = OpIs -> b <> []) -> digit_head ls ->
  exists x, pseq p_relation_operator space0 (os ++ b ++ ls ++ rest) = PO (ls ++ rest) (o, x).
Proof.
  intros G B NI H.
  assert (NB : no_blank (ls ++ rest)) by now apply digit_head_blank.
  assert (S0 : space0 (b ++ ls ++ rest) = PO (ls ++ rest) b) by (apply space0_app; auto).
  assert (S00 : space0 (ls ++ rest) = PO (ls ++ rest) []) by (apply (space0_app []); [constructor|auto]).
  destruct G; unfold pseq at 1, p_relation_operator.
  - unfold palt, pmap, pbind. rewrite tag_app, S0. eauto.
  - unfold palt at 1. unfold pmap at 1. unfold pbind at 2.
    assert (X : tag (bs "=") (bs "!=" ++ b ++ ls ++ rest) = PE) by reflexivity. rewrite X.
    unfold palt, pmap, pbind. rewrite tag_app, S0. eauto.
  - unfold palt, pmap, pseq, pbind.
    assert (X : tag (bs "=") (bs "is" ++ b ++ ls ++ rest) = PE) by reflexivity. rewrite X.
    assert (Y : tag (bs "!=") (bs "is" ++ b ++ ls ++ rest) = PE) by reflexivity. rewrite Y.
    rewrite tag_app, space1_app by (auto; split; auto). unfold popt. rewrite not_miss by auto. rewrite S00. eauto.
  - unfold palt, pmap, pseq, pbind. rewrite <- !app_assoc.
    assert (X : tag (bs "=") (bs "is" ++ b0 ++ bs "not" ++ b ++ ls ++ rest) = PE) by reflexivity. rewrite X.
    assert (Y : tag (bs "!=") (bs "is" ++ b0 ++ bs "not" ++ b ++ ls ++ rest) = PE) by reflexivity. rewrite Y.
    rewrite tag_app, space1_app by (auto; now apply no_blank_cons). unfold popt. rewrite tag_app, S0. eauto.
  - unfold palt, pmap, pseq, pbind.
    assert (X : tag (bs "=") (bs "in" ++ b ++ ls ++ rest) = PE) by reflexivity. rewrite X.
    assert (Y : tag (bs "!=") (bs "in" ++ b ++ ls ++ rest) = PE) by reflexivity. rewrite Y.
    assert (Z : tag (bs "is") (bs "in" ++ b ++ ls ++ rest) = PE) by reflexivity. rewrite Z.
    rewrite tag_app, S0. eauto.
  - unfold palt, pmap, pseq, pbind. rewrite <- !app_assoc.
    assert (X : tag (bs "=") (bs "not" ++ b0 ++ bs "in" ++ b ++ ls ++ rest) = PE) by reflexivity. rewrite X.
    assert (Y : tag (bs "!=") (bs "not" ++ b0 ++ bs "in" ++ b ++ ls ++ rest) = PE) by reflexivity. rewrite Y.
    assert (Z : tag (bs "is") (bs "not" ++ b0 ++ bs "in" ++ b ++ ls ++ rest) = PE) by reflexivity. rewrite Z.
    assert (W : tag (bs "in") (bs "not" ++ b0 ++ bs "in" ++ b ++ ls ++ rest) = PE) by reflexivity. rewrite W.
    rewrite tag_app, space1_app by (auto; now apply no_blank_cons). rewrite tag_app, S0. eauto.
  - unfold palt, pmap, pseq, pbind.
    assert (X : tag (bs "=") (bs "within" ++ b ++ ls ++ rest) = PE) by reflexivity. rewrite X.
    assert (Y : tag (bs "!=") (bs "within" ++ b ++ ls ++ rest) = PE) by reflexivity. rewrite Y.
    assert (Z : tag (bs "is") (bs "within" ++ b ++ ls ++ rest) = PE) by reflexivity. rewrite Z.
    assert (W : tag (bs "in") (bs "within" ++ b ++ ls ++ rest) = PE) by reflexivity. rewrite W.
    assert (V : tag (bs "not") (bs "within" ++ b ++ ls ++ rest) = PE) by reflexivity. rewrite V.
    rewrite tag_app, S0. eauto.
  - unfold palt, pmap, pseq, pbind. rewrite <- !app_assoc.
    assert (X : tag (bs "=") (bs "not" ++ b0 ++ bs "within" ++ b ++ ls ++ rest) = PE) by reflexivity. rewrite X.
    assert (Y : tag (bs "!=") (bs "not" ++ b0 ++ bs "within" ++ b ++ ls ++ rest) = PE) by reflexivity. rewrite Y.
    assert (Z : tag (bs "is") (bs "not" ++ b0 ++ bs "within" ++ b ++ ls ++ rest) = PE) by reflexivity. rewrite Z.
    assert (W : tag (bs "in") (bs "not" ++ b0 ++ bs "within" ++ b ++ ls ++ rest) = PE) by reflexivity. rewrite W.
    rewrite tag_app, space1_app by (auto; now apply no_blank_cons).
    assert (V : tag (bs "in") (bs "within" ++ b ++ ls ++ rest) = PE) by reflexivity. rewrite V.
    rewrite tag_app, S0. eauto.
Qed.

Lemma relation_complete r s rest : g_relation true r s -> fol_list rest -> p_relation (s ++ rest) = PO rest r.
Proof.
  intros [e es b1 o os b2 l ls E B1 O B2 NI [L|[X _]]] F; [|discriminate].
  assert (H := list_head l ls L). assert (OH := op_starts o os O).
  unfold p_relation, pmap. rewrite <- !app_assoc.
  unfold pseq at 1. unfold pbind at 2. rewrite (expression_complete e es b1 _ E B1) by now apply op_head_app.
  unfold pseq at 1. unfold pbind at 3. rewrite space0_app by (auto; now apply op_head_blank, op_head_app).
  destruct (operator_complete o os b2 ls rest O B2 NI H) as (x & P).
  unfold pseq, pbind in P |- *.
  destruct (p_relation_operator (os ++ b2 ++ ls ++ rest)) as [r1 o1| |]; try discriminate.
  destruct (space0 r1) as [r2 y| |]; try discriminate. injection P as -> -> ->.
  now rewrite (list_complete l ls rest L F).
Qed.

Definition letter_head (s : bytes) : Prop := exists o r, s = operand_text o ++ r.
Lemma expr_head e s : g_expr e s -> letter_head s.
Proof. intros [o|o b1 w b2 k t _ _ _ _]; [exists o, []; now rewrite app_nil_r|eexists; eauto]. Qed.
Lemma relation_head b r s : g_relation b r s -> letter_head s.
Proof. intros [e es b1 o os b2 l ls E]. apply expr_head in E as (x & t & ->). rewrite <- app_assoc. eexists _, _. reflexivity. Qed.
Lemma and_head b a s : g_and b a s -> letter_head s.
Proof.
  intros H. apply sep_list_start in H as (r & t & u & G & ->). apply relation_head in G as (x & t' & ->).
  rewrite <- app_assoc. eexists _, _. reflexivity.
Qed.
Lemma condition_head b c s : g_condition b c s -> letter_head s.
Proof.
  intros H. apply sep_list_start in H as (r & t & u & G & ->). apply and_head in G as (x & t' & ->).
  rewrite <- app_assoc. eexists _, _. reflexivity.
Qed.
Lemma letter_head_blank s r : letter_head s -> no_blank (s ++ r).
Proof. intros (o & t & ->). destruct o; now apply no_blank_cons. Qed.
Lemma letter_head_nonempty s : letter_head s -> s <> [].
Proof. intros (o & t & ->). destruct o; easy. Qed.

(** after a word *)
Lemma word_fol w c t q r : w = c :: t -> is_space c = false -> c <> 44 -> word w q -> fol_list (q ++ r).
Proof.
  intros -> C N (b1 & b2 & B1 & B2 & ->). rewrite <- !app_assoc. split.
  - now apply fol_blank.
  - cbn [app]. apply comma_miss; auto. apply B1.
Qed.
Definition fol_and (rest : bytes) : Prop := fol_list rest /\ p_word (bs "and") rest = PE.
Lemma and_complete a s rest : g_and true a s -> fol_and rest -> p_and_condition (s ++ rest) = PO rest a.
Proof.
  intros G [F C]. unfold p_and_condition.
  apply (separated_complete (p_word (bs "and")) p_relation (word (bs "and")) (g_relation true) fol_list); auto.
  - intros q r t u Q I. apply word_complete; [auto|now apply no_blank_cons|easy|].
    apply letter_head_blank. now apply (relation_head true r).
  - intros r t u I K. now apply relation_complete.
  - intros r t I. apply letter_head_nonempty. now apply (relation_head true r).
  - intros q r t u Q I. now apply (word_fol (bs "and") 97 (bs "nd")).
  - apply word_nonempty.
  - now left.
Qed.
Definition fol_condition (rest : bytes) : Prop := fol_and rest /\ p_word (bs "or") rest = PE.
Lemma or_complete c s rest : g_condition true c s -> fol_condition rest ->
  separated_nonempty_list (p_word (bs "or")) p_and_condition (s ++ rest) = PO rest c.
Proof.
  intros G [F C].
  apply (separated_complete (p_word (bs "or")) p_and_condition (word (bs "or")) (g_and true) fol_and); auto.
  - intros q r t u Q I. apply word_complete; [auto|now apply no_blank_cons|easy|].
    apply letter_head_blank. now apply (and_head true r).
  - intros r t u I K. now apply and_complete.
  - intros r t I. apply letter_head_nonempty. now apply (and_head true r).
  - intros q r t u Q I. split; [now apply (word_fol (bs "or") 111 (bs "r"))|].
    destruct Q as (b1 & b2 & [B1 _] & _ & ->). rewrite <- !app_assoc. apply word_miss; auto.
  - apply word_nonempty.
  - now left.
Qed.

(** ** Samples *)
Lemma decimal_complete d s rest : g_decimal d s -> fol_number rest -> p_decimal_value (s ++ rest) = PO rest d.
Proof.
  intros G F. unfold p_decimal_value, pmap, pseq, popt, preceded, pbind. destruct G as [k s G|k s f t G1 G2].
  - rewrite (value_complete k s rest G) by now apply fol_no_digit.
    assert (T : tag (bs ".") rest = PE).
    { destruct rest as [|c r]; [reflexivity|]. destruct (F c r eq_refl) as [_ N]. now apply (tag_other 46). }
    now rewrite T.
  - rewrite <- !app_assoc. rewrite (value_complete k s _ G1) by (intros c r E; now injection E as <- _).
    rewrite tag_app. now rewrite (value_complete f t rest G2) by now apply fol_no_digit.
Qed.
Lemma decimal_head d s : g_decimal d s -> digit_head s.
Proof. intros [k t G|k t f u G _]; [now apply (value_head k)|apply digit_head_app; now apply (value_head k)]. Qed.

Definition p_tilde : parser (bytes * (bytes * bytes)) := pseq space0 (pseq (tag (bs "~")) space0).
Lemma tilde_miss b c r : blanks b -> is_space c = false -> c <> 126 -> p_tilde (b ++ c :: r) = PE.
Proof.
  intros B C N. unfold p_tilde, pseq, pbind. rewrite space0_app by (auto; now apply no_blank_cons).
  assert (T : tag (bs "~") (c :: r) = PE) by now apply (tag_other 126). now rewrite T.
Qed.
Definition fol_srange (rest : bytes) : Prop := fol_number rest /\ p_tilde rest = PE.
Lemma sample_range_complete r s rest : g_sample_range r s -> fol_srange rest -> p_sample_range (s ++ rest) = PO rest r.
Proof.
  intros G [F T]. unfold p_sample_range. fold p_tilde.
  unfold pmap, pseq, popt, preceded, pbind. destruct G as [x s G|x s b1 b2 y t G1 B1 B2 G2].
  - rewrite (decimal_complete x s rest G F). now rewrite T.
  - rewrite <- !app_assoc.
    rewrite (decimal_complete x s _ G1) by (apply fol_blank0; [auto|now apply fol_cons]).
    assert (P : p_tilde (b1 ++ bs "~" ++ b2 ++ t ++ rest) = PO (t ++ rest) (b1, (bs "~", b2))).
    { unfold p_tilde, pseq, pbind. rewrite space0_app by (auto; now apply no_blank_cons).
      rewrite tag_app, space0_app by (auto; apply digit_head_blank; now apply (decimal_head y)). reflexivity. }
    rewrite P. now rewrite (decimal_complete y t rest G2 F).
Qed.
Lemma sample_range_head r s : g_sample_range r s -> digit_head s.
Proof. intros [x t G|x t b1 b2 y u G _ _ _]; [now apply (decimal_head x)|apply digit_head_app; now apply (decimal_head x)]. Qed.
Lemma comma_fol_srange q r : comma q -> fol_srange (q ++ r).
Proof.
  intros Q. split; [now apply comma_fol|]. destruct Q as (b1 & b2 & B1 & B2 & ->). rewrite <- !app_assoc.
  now apply tilde_miss.
Qed.
Definition fol_slist (rest : bytes) : Prop := fol_srange rest /\ p_comma rest = PE.
Lemma sranges_complete l s rest : sep_list comma g_sample_range l s -> fol_srange rest ->
  stops p_comma p_sample_range rest -> separated_nonempty_list p_comma p_sample_range (s ++ rest) = PO rest l.
Proof.
  intros G F C.
  apply (separated_complete p_comma p_sample_range comma g_sample_range fol_srange); auto.
  - intros q a t r Q I. apply comma_complete; [auto|]. apply digit_head_blank. now apply (sample_range_head a).
  - intros a t r I K. now apply sample_range_complete.
  - intros a t I. apply head_nonempty. now apply (sample_range_head a).
  - intros q a t r Q I. now apply comma_fol_srange.
  - apply comma_nonempty.
Qed.
Lemma sample_list_complete l s rest : g_sample_list l s -> fol_slist rest -> p_sample_list (s ++ rest) = PO rest l.
Proof.
  intros G [F C]. unfold p_sample_list, pmap, pseq, popt, preceded, pbind. destruct G as [l s G|l s p w G P W].
  - rewrite (sranges_complete l s rest G F) by now left. now rewrite C.
  - rewrite <- !app_assoc.
    assert (NB : no_blank (w ++ rest)) by (destruct W as [->| ->]; now apply no_blank_cons).
    destruct (comma_complete p w rest P NB) as (x & PC).
    rewrite (sranges_complete l s _ G).
    + rewrite PC. unfold palt. destruct W as [->| ->].
      * now rewrite tag_app.
      * assert (X : tag (bs "...") (bs "…" ++ rest) = PE) by reflexivity. rewrite X. now rewrite tag_app.
    + now apply comma_fol_srange.
    + right. exists (w ++ rest), x. split; [exact PC|]. split.
      * apply app_neq. now apply comma_nonempty.
      * destruct W as [->| ->]; reflexivity.
Qed.
Lemma sample_list_head l s : g_sample_list l s -> digit_head s.
Proof.
  intros [k t G|k t p w G _ _]; [|apply digit_head_app]; apply sep_list_start in G as (a & u & v & G & ->);
    apply digit_head_app; now apply (sample_range_head a).
Qed.
Lemma part_complete w l s rest : (exists t, w = 64 :: t) -> g_part w l s ->
  (l <> None -> fol_slist rest) -> (l = None -> p_word w rest = PE) ->
  popt (preceded (p_word w) p_sample_list) (s ++ rest) = PO rest l.
Proof.
  intros (t & ->) G F M. unfold popt, preceded, pbind. destruct G as [|p l s W G].
  - cbn [app]. now rewrite M.
  - rewrite <- app_assoc.
    destruct (word_complete _ p s rest W) as (x & P); [now apply no_blank_cons|easy| |].
    + apply digit_head_blank. now apply (sample_list_head l).
    + rewrite P. rewrite (sample_list_complete l s rest G) by (apply F; discriminate). reflexivity.
Qed.
(** after a list of samples: nothing, or the decimal part *)
Lemma nil_fol_slist : fol_slist [].
Proof. split; [split; [easy|reflexivity]|reflexivity]. Qed.
Lemma word_fol_slist t q r : word (64 :: t) q -> fol_slist (q ++ r).
Proof.
  intros (b1 & b2 & B1 & B2 & ->). rewrite <- !app_assoc. cbn [app]. split; [split|].
  - now apply fol_blank.
  - apply tilde_miss; [apply B1|reflexivity|discriminate].
  - apply comma_miss; [apply B1|reflexivity|discriminate].
Qed.
Lemma samples_complete sa s : g_samples sa s -> p_samples s = PO [] sa.
Proof.
  intros [i si d sd I D]. unfold p_samples, pmap. unfold pseq, pbind.
  rewrite (part_complete (bs "@integer") i si sd (ex_intro _ (bs "integer") eq_refl) I).
  - pose proof (part_complete (bs "@decimal") d sd [] (ex_intro _ (bs "decimal") eq_refl) D) as X. rewrite app_nil_r in X.
    rewrite X; [destruct i, d; reflexivity|intros _; apply nil_fol_slist|intros _; reflexivity].
  - intros _. destruct D as [|p l t W G]; [apply nil_fol_slist|]. now apply (word_fol_slist (bs "decimal")).
  - intros _. destruct D as [|p l t W G]; [reflexivity|]. destruct W as (b1 & b2 & B1 & B2 & ->).
    rewrite <- !app_assoc. apply word_miss; [apply B1|reflexivity|reflexivity].
Qed.
Lemma samples_fol sa s : g_samples sa s -> fol_condition s.
Proof.
  intros [i si d sd I D].
  assert (W : forall t p r, word (64 :: t) p -> fol_condition (p ++ r)).
  { intros t p r W. destruct (word_fol_slist t p r W) as [[F _] C]. 
    destruct W as (b1 & b2 & B1 & B2 & ->). rewrite <- !app_assoc in *. cbn [app] in *.
    split; [split; [split; [exact F|exact C]|]|]; (apply word_miss; [apply B1|reflexivity|reflexivity]). }
  destruct I as [|p l t Wi G].
  - destruct D as [|p l t Wd G]; [repeat split; easy|]. exact (W (bs "decimal") p t Wd).
  - rewrite <- app_assoc. exact (W (bs "integer") p _ Wi).
Qed.
End Width.
