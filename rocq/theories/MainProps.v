(** * Facts about main.rs *)
From Verif Require Import Base Utf8 DigitFacts MakeRules Main.
From Verif Require Import MakeFacts.
Open Scope N_scope.

Section Width.
Context {ptr : ptr_width}.

(** a path holds a text *)
Definition holds (fs : files) (p : path) (s : bytes) : Prop := fs p = Some s /\ utf8_text s.
(** the code the program is asked for *)
Definition code_of (srt : sorter) (fs : files) (inputs : list path) (code : bytes) : Prop :=
  exists jsons, Forall2 (holds fs) inputs jsons /\ generate_rs srt jsons = Ok code.
Definition unchanged (fs fs' : files) : Prop := forall p, fs' p = fs p.
Definition unchanged_but (q : path) (fs fs' : files) : Prop := forall p, p <> q -> fs' p = fs p.

Lemma read_input_ok fs p s : read_input fs p = Ok s <-> holds fs p s.
Proof.
  unfold read_input, holds. rewrite <- utf8_iff. destruct (fs p) as [t|]; [destruct (utf8_valid t) eqn:V|]; split; intros H; try discriminate H.
  - injection H as <-. auto.
  - destruct H as [H _]. now injection H as ->.
  - destruct H as [H K]. injection H as ->. congruence.
  - now destruct H.
Qed.
Lemma read_input_not_err fs p e : read_input fs p <> Err e.
Proof. unfold read_input. destruct (fs p) as [t|]; [destruct (utf8_valid t)|]; discriminate. Qed.
Lemma read_all_ok fs ps : forall js, map_res (read_input fs) ps = Ok js <-> Forall2 (holds fs) ps js.
Proof.
  induction ps as [|p ps IH]; intros js.
  - cbn. split; intros H; [injection H as <-; constructor|now inversion H].
  - change (map_res (read_input fs) (p :: ps)) with
      (rbind (read_input fs p) (fun y => rbind (map_res (read_input fs) ps) (fun ys => Ok (y :: ys)))).
    split; intros H.
    + destruct (read_input fs p) as [s|e|w] eqn:R; cbn [rbind] in H; try discriminate H. apply read_input_ok in R.
      destruct (map_res (read_input fs) ps) as [js'|e|w] eqn:M; cbn [rbind] in H; try discriminate H.
      injection H as <-. constructor; [exact R|]. now apply IH.
    + inversion H as [|? s' ? js2 A B]; subst. apply read_input_ok in A. apply IH in B. now rewrite A, B.
Qed.
Lemma prepared_no_err srt fs ps : no_err (let? jsons := map_res (read_input fs) ps in generate_rs srt jsons).
Proof.
  apply no_err_bind; [apply no_err_map; intros a _ e; apply read_input_not_err|]. intros js _. apply generate_no_err.
Qed.
Lemma prepared_ok srt fs ps code :
  (let? jsons := map_res (read_input fs) ps in generate_rs srt jsons) = Ok code <-> code_of srt fs ps code.
Proof.
  unfold code_of. split.
  - destruct (map_res (read_input fs) ps) as [js|e|w] eqn:M; cbn [rbind]; intros H; try discriminate H.
    exists js. split; [now apply read_all_ok|exact H].
  - intros (js & A & B). apply read_all_ok in A. now rewrite A.
Qed.

Lemma set_same p s fs : set_file p s fs p = Some s.
Proof. unfold set_file. assert (E : bytes_eqb p p = true) by now apply bytes_eqb_eq. now rewrite E. Qed.
Lemma set_other p s fs : unchanged_but p fs (set_file p s fs).
Proof. intros q H. unfold set_file. destruct (bytes_eqb q p) eqn:E; [|reflexivity]. apply bytes_eqb_eq in E. contradiction. Qed.

(** ** The program, case by case *)
Lemma no_code srt sys o fs : (forall code, ~ code_of srt fs (o_inputs o) code) ->
  exists w, main srt sys o fs = (fs, Panic w).
Proof.
  intros H. unfold main. pose proof (prepared_no_err srt fs (o_inputs o)) as E.
  destruct (let? jsons := _ in _) as [code|e|w] eqn:R.
  - exfalso. apply (H code). now apply prepared_ok.
  - exfalso. now apply (E e).
  - now exists w.
Qed.
Lemma with_code srt sys o fs code : code_of srt fs (o_inputs o) code ->
  main srt sys o fs =
    if can_create sys (o_output o) then
      match write_stops sys (o_output o) code with
      | Some k => (set_file (o_output o) (firstn k code) fs, Err "io error")
      | None =>
          if o_ugly o then (set_file (o_output o) code fs, Ok tt)
          else match rustfmt sys with
               | Some f => (f (o_output o) (set_file (o_output o) code fs), Ok tt)
               | None => (set_file (o_output o) code fs, Panic "Failed to format the output using `rustfmt`")
               end
      end
    else (fs, Err "io error").
Proof. intros H. apply prepared_ok in H. unfold main. now rewrite H. Qed.
Lemma code_dec srt fs ps : (exists code, code_of srt fs ps code) \/ (forall code, ~ code_of srt fs ps code).
Proof.
  destruct (let? jsons := map_res (read_input fs) ps in generate_rs srt jsons) as [code|e|w] eqn:R.
  - left. exists code. now apply prepared_ok.
  - right. intros code H. apply prepared_ok in H. congruence.
  - right. intros code H. apply prepared_ok in H. congruence.
Qed.
Lemma code_unique srt fs ps c1 c2 : code_of srt fs ps c1 -> code_of srt fs ps c2 -> c1 = c2.
Proof. intros A B. apply prepared_ok in A, B. congruence. Qed.

Lemma success_iff srt sys o fs : snd (main srt sys o fs) = Ok tt <->
  exists code, code_of srt fs (o_inputs o) code /\ can_create sys (o_output o) = true /\
    write_stops sys (o_output o) code = None /\ (o_ugly o = true \/ rustfmt sys <> None).
Proof.
  split.
  - intros H. destruct (code_dec srt fs (o_inputs o)) as [(code & C)|N].
    + rewrite (with_code _ _ _ _ _ C) in H. exists code. split; [exact C|].
      destruct (can_create sys (o_output o)); [|discriminate H]. split; [reflexivity|].
      destruct (write_stops sys (o_output o) code); [discriminate H|]. split; [reflexivity|].
      destruct (o_ugly o); [now left|]. destruct (rustfmt sys); [now right|discriminate H].
    + destruct (no_code srt sys o fs N) as (w & E). rewrite E in H. discriminate H.
  - intros (code & C & A & B & D). rewrite (with_code _ _ _ _ _ C), A, B.
    destruct (o_ugly o); [reflexivity|]. destruct (rustfmt sys); [reflexivity|]. destruct D; [discriminate|contradiction].
Qed.
(** only the output path is ever touched, before rustfmt runs *)
Lemma only_output srt sys o fs : o_ugly o = true \/ rustfmt sys = None ->
  unchanged_but (o_output o) fs (fst (main srt sys o fs)).
Proof.
  intros F. destruct (code_dec srt fs (o_inputs o)) as [(code & C)|N].
  - rewrite (with_code _ _ _ _ _ C). destruct (can_create sys (o_output o)); [|now intros q _].
    destruct (write_stops sys (o_output o) code); [apply set_other|]. destruct (o_ugly o); [apply set_other|].
    destruct F as [F|F]; [discriminate F|rewrite F]. apply set_other.
  - destruct (no_code srt sys o fs N) as (w & E). rewrite E. now intros q _.
Qed.
End Width.
