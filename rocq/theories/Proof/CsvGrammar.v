(** The unbuffered CSV reader accepts the grammar of Spec/CsvSpec.v.  Proof/CsvPure.v *)
From Verif Require Import Base.Bytes Model.BufferedSource Model.Lines Model.Csv Spec.CsvSpec Proof.SourceProof Proof.CsvPure Proof.CsvLockstep.

(** ** Classes of characters *)
Lemma opt_eqb_some c a : opt_eqb (Some c) a = true <-> a = Some c.
Proof. destruct a as [x|]; cbn; [|split; discriminate]. rewrite Z.eqb_eq. split; congruence. Qed.
Lemma opt_eqb_some_false c a : opt_eqb (Some c) a = false <-> a <> Some c.
Proof. rewrite <- opt_eqb_some. destruct (opt_eqb (Some c) a); intuition congruence. Qed.
Record distinct (o : reader_options) : Prop := {
  d_comment : c_comment o <> Some LF /\ c_comment o <> Some CR;
  d_sep : c_sep o <> LF /\ c_sep o <> CR /\ c_comment o <> Some (c_sep o);
  d_quote : c_quote o <> Some LF /\ c_quote o <> Some CR /\ c_quote o <> Some (c_sep o) /\ forall c, c_quote o = Some c -> c_comment o <> Some c;
  d_escape : c_escape o <> Some LF /\ c_escape o <> Some CR /\ c_escape o <> Some (c_sep o) /\ (forall c, c_escape o = Some c -> c_comment o <> Some c) /\
             forall c, c_escape o = Some c -> c_quote o <> Some c }.
Lemma is_newline_true c : is_newline c = true <-> c = LF \/ c = CR.
Proof. unfold is_newline. rewrite orb_true_iff, !Z.eqb_eq. reflexivity. Qed.
Lemma negb_false b : negb b = true -> b = false. Proof. destruct b; auto. Qed.
Lemma options_distinct o : reader_options_ok o = true -> distinct o.
Proof.
  unfold reader_options_ok. rewrite !andb_true_iff. intros ((((H1 & H2) & H3) & H4) & H5).
  apply negb_false in H1, H2, H3. apply opt_eqb_some_false in H3.
  assert (NL : forall c, is_newline c = false -> c <> LF /\ c <> CR) by (intros c H; split; intro; subst; discriminate).
  apply NL in H2. split.
  - destruct (c_comment o) as [c|]; [|split; discriminate]. apply NL in H1. split; intro X; injection X; tauto.
  - tauto.
  - destruct (c_quote o) as [q|]; [|repeat split; discriminate]. rewrite !andb_true_iff in H4. destruct H4 as ((A & B) & C). apply negb_false in A, B, C.
    apply NL in A. apply opt_eqb_some_false in B. repeat split; try (intro X; injection X; tauto || (intros; subst; lia)). intros c X. injection X as <-. exact B.
  - destruct (c_escape o) as [e|]; [|repeat split; discriminate]. rewrite !andb_true_iff in H5. destruct H5 as (((A & B) & C) & D). apply negb_false in A, B, C, D.
    apply NL in A. apply opt_eqb_some_false in B, D. repeat split; try (intro X; injection X; tauto || (intros; subst; lia)); intros c X; injection X as <-; assumption.
Qed.
Definition class_meaning (o : reader_options) (c : Z) (k : CharClass) : Prop :=
  match k with
  | kOther => ordinary o c /\ c_comment o <> Some c
  | kLf => c = LF
  | kCr => c = CR
  | kComment => ordinary o c /\ c_comment o = Some c
  | kFieldSeparator => c = c_sep o
  | kQuote => c_quote o = Some c
  | kEscape => c_escape o = Some c
  end.
Lemma class_spec o c : distinct o -> class_meaning o c (class_of o c).
Proof.
  intros [D1 D2 D3 D4]. unfold class_of. destruct (opt_eqb (Some c) (c_escape o)) eqn:E1; [apply opt_eqb_some; exact E1|]. apply opt_eqb_some_false in E1.
  destruct (opt_eqb (Some c) (c_quote o)) eqn:E2; [apply opt_eqb_some; exact E2|]. apply opt_eqb_some_false in E2.
  destruct (c =? c_sep o) eqn:E3; [cbn; lia|]. destruct (opt_eqb (Some c) (c_comment o)) eqn:E4.
  - apply opt_eqb_some in E4. cbn. unfold ordinary. repeat split; auto; intro; subst c; [tauto..|lia].
  - apply opt_eqb_some_false in E4. destruct (c =? CR) eqn:E5; [cbn; lia|]. destruct (c =? LF) eqn:E6; cbn; [lia|]. unfold ordinary. repeat split; auto; intro; subst c; lia.
Qed.
Lemma class_iff o c k : distinct o -> class_meaning o c k -> class_of o c = k.
Proof.
  intros D M. pose proof (class_spec o c D) as C. destruct D as [(D1 & D2) (D3 & D4 & D5) (D6 & D7 & D8 & D9) (D10 & D11 & D12 & D13 & D14)].
  specialize (D9 c). specialize (D13 c). specialize (D14 c). unfold class_meaning, ordinary in *.
  assert (LF <> CR) by discriminate. destruct (class_of o c), k; try reflexivity; exfalso; intuition congruence.
Qed.

Section Grammar.
Context (o : reader_options) (fails standalone : bool) (Distinct : distinct o).
Notation p_loop := (p_loop o fails standalone).
Notation p_next_record := (p_next_record o fails standalone).
Notation p_next_field := (p_next_field o).
Notation p_step := (p_step o fails standalone).
Notation p_quoted := (p_quoted o fails).
Notation p_after_quoted := (p_after_quoted o fails standalone).

(** ** Runs *)
Definition runs (st : pstep) (res : pres) : Prop := exists fuel, p_loop fuel st = Some res.
Lemma runs_done res : runs (PDone res) res.
Proof. exists 0%nat. reflexivity. Qed.
Lemma runs_step text done field line last res : runs (p_step text done field line last) res -> runs (PScan text done field line last) res.
Proof. intros (fuel & E). exists (S fuel). exact E. Qed.
Lemma runs_unique st res res' : runs st res -> runs st res' -> res = res'.
Proof.
  intros (f & E) (f' & E'). apply (p_loop_more o fails standalone f st res f') in E. apply (p_loop_more o fails standalone f' st res' f) in E'. rewrite Nat.add_comm in E'. congruence.
Qed.
Lemma p_record_runs text line res : p_record o fails standalone text line = Some res <-> runs (p_next_record text line) res.
Proof.
  split; [intro E; exists (S (length text)); exact E|]. intro R. destruct (p_loop_some o fails standalone (S (length text)) (p_next_record text line)) as (res' & E).
  - apply p_next_record_length.
  - unfold p_record. rewrite E. f_equal. apply (runs_unique (p_next_record text line)); [exists (S (length text)); exact E|exact R].
Qed.

(** ** Completeness *)
Definition ending (t rest : list Z) : Prop :=
  (t = [] /\ rest = [] /\ fails = false) \/ (exists nl, line_break nl /\ t = nl ++ rest /\ standalone = false).
Lemma class_lf : class_of o LF = kLf. Proof. apply class_iff; [exact Distinct|reflexivity]. Qed.
Lemma class_cr : class_of o CR = kCr. Proof. apply class_iff; [exact Distinct|reflexivity]. Qed.
Lemma class_sep : class_of o (c_sep o) = kFieldSeparator. Proof. apply class_iff; [exact Distinct|reflexivity]. Qed.
Lemma class_q q : c_quote o = Some q -> class_of o q = kQuote. Proof. intro. apply class_iff; [exact Distinct|assumption]. Qed.
Lemma class_e e : c_escape o = Some e -> class_of o e = kEscape. Proof. intro. apply class_iff; [exact Distinct|assumption]. Qed.
Lemma p_done_ok t done field line last : standalone = false -> p_done standalone t done field line last = PDone (POk (done ++ [field]) t (line + 1) last).
Proof. intro E. unfold p_done. rewrite E. reflexivity. Qed.
Lemma end_unquoted t rest done field line last : ending t rest -> too_long o field = false -> (c_skip_empty o = true -> done = [] -> field = [] -> t = []) ->
  exists line', runs (PScan t done field line last) (POk (done ++ [field]) rest line' last).
Proof.
  intros E TL Sk. exists (line + 1). apply runs_step. destruct E as [(-> & -> & F)|(nl & Nl & -> & Sa)].
  - cbn [CsvPure.p_step]. rewrite TL, at_end_false by exact F. apply runs_done.
  - assert (N : p_newline o fails standalone rest done field line last = PDone (POk (done ++ [field]) rest (line + 1) last)).
    { unfold p_newline. replace (c_skip_empty o && (zlen done =? 0) && (zlen field =? 0)) with false; [apply p_done_ok; exact Sa|].
      destruct (c_skip_empty o); [|reflexivity]. destruct done as [|x d]; [|rewrite zlen_cons; pose proof (zlen_nonneg d); replace (1 + zlen d =? 0) with false by lia; reflexivity].
      destruct field as [|y f]; [|rewrite (zlen_cons y f); pose proof (zlen_nonneg f); replace (1 + zlen f =? 0) with false by lia; rewrite andb_false_r; reflexivity]. exfalso. specialize (Sk eq_refl eq_refl eq_refl). destruct Nl as [->| ->]; discriminate Sk. }
    destruct Nl as [->| ->]; cbn [app CsvPure.p_step].
    + rewrite class_lf, TL, N. apply runs_done.
    + rewrite class_cr, TL. cbn [p_after_cr]. change (LF =? LF) with true. cbn iota. rewrite N. apply runs_done.
Qed.
Lemma end_quoted t rest done field line last : ending t rest -> exists line', runs (p_after_quoted t done field line last) (POk (done ++ [field]) rest line' last).
Proof.
  intros E. exists (line + 1). destruct E as [(-> & -> & F)|(nl & Nl & -> & Sa)]; cbn [CsvPure.p_after_quoted].
  - rewrite at_end_false by exact F. apply runs_done.
  - destruct Nl as [->| ->]; cbn [app CsvPure.p_after_quoted].
    + rewrite class_lf, p_done_ok by exact Sa. apply runs_done.
    + rewrite class_cr. cbn [p_after_cr]. change (LF =? LF) with true. cbn iota. rewrite p_done_ok by exact Sa. apply runs_done.
Qed.
Definition no_comment (text : list Z) : Prop := forall c text', c_comment o = Some c -> text <> c :: text'.
Lemma not_long field f : zlen (field ++ f) <= c_max_length o -> too_long o field = false.
Proof. rewrite zlen_app. pose proof (zlen_nonneg f). unfold too_long. lia. Qed.
Lemma run_unquoted u f : unquoted o u f -> forall t done field line last res, (done = [] -> field = [] -> no_comment u) -> zlen (field ++ f) <= c_max_length o ->
  runs (PScan t done (field ++ f) line last) res -> runs (PScan (u ++ t) done field line last) res.
Proof.
  intro H. induction H as [|c text f Or H IH|e c text f Es H IH]; intros t done field line last res NC L R.
  - rewrite app_nil_r in R. exact R.
  - rewrite (app_assoc field [c] f : field ++ c :: f = _) in L, R. cbn [app]. apply runs_step.
    assert (N : runs (PScan (text ++ t) done (field ++ [c]) line last) res) by (apply IH; [intros _ X; destruct field; discriminate X|exact L|exact R]).
    cbn [CsvPure.p_step]. destruct (class_of o c) eqn:Cl; pose proof (class_spec o c Distinct) as M; rewrite Cl in M; cbn in M; unfold ordinary in *; try (exfalso; tauto).
    + exact N.
    + destruct done as [|d done]; [|rewrite zlen_cons; pose proof (zlen_nonneg done); replace (1 + zlen done =? 0) with false by lia; exact N].
      destruct field as [|y field]; [|rewrite (zlen_cons y field); pose proof (zlen_nonneg field); replace (1 + zlen field =? 0) with false by lia; rewrite andb_false_r; exact N].
      exfalso. apply (NC eq_refl eq_refl c text); [tauto|reflexivity].
  - rewrite (app_assoc field [c] f : field ++ c :: f = _) in L, R. cbn [app]. apply runs_step. cbn [CsvPure.p_step]. rewrite (class_e e Es).
    rewrite (not_long field ([c] ++ f)) by (rewrite app_assoc; exact L). apply IH; [intros _ X; destruct field; discriminate X|exact L|exact R].
Qed.
Lemma run_quoted b f : quoted_body o b f -> forall q t field line, c_quote o = Some q -> (forall t', t <> q :: t') -> zlen (field ++ f) <= c_max_length o -> (t = [] -> fails = false) ->
  exists line', p_quoted (b ++ [q] ++ t) field line = QDone (field ++ f) t line'.
Proof.
  intro H. induction H as [|c text f Nq Ne H IH|q0 text f Eq H IH|e c text f Es H IH]; intros q t field line Q Nt L F; cbn [app CsvPure.p_quoted].
  - rewrite (class_q q Q), (not_long field []) by exact L. rewrite app_nil_r. exists line. destruct t as [|c t']; [rewrite at_end_false by auto; reflexivity|].
    unfold quote_char. rewrite Q. destruct (c =? q) eqn:E; [exfalso; apply (Nt t'); f_equal; lia|reflexivity].
  - rewrite (app_assoc field [c] f : field ++ c :: f = _) in *. pose proof (class_spec o c Distinct) as M. destruct (class_of o c) eqn:Cl; cbn in M; try (exfalso; tauto); apply IH; assumption.
  - assert (q0 = q) by congruence. subst q0. rewrite (app_assoc field [q] f : field ++ q :: f = _) in *. rewrite (class_q q Q), (not_long field ([q] ++ f)) by (rewrite app_assoc; exact L).
    unfold quote_char. rewrite Q, Z.eqb_refl. apply IH; assumption.
  - rewrite (app_assoc field [c] f : field ++ c :: f = _) in *. rewrite (class_e e Es), (not_long field ([c] ++ f)) by (rewrite app_assoc; exact L). apply IH; assumption.
Qed.
Lemma ending_not_quote q t rest : c_quote o = Some q -> ending t rest -> forall t', t <> q :: t'.
Proof.
  intros Q E t' X. destruct Distinct as [_ _ (D1 & D2 & _) _]. destruct E as [(-> & _)|(nl & [->| ->] & -> & _)]; [discriminate X|..]; injection X as X _; subst q; tauto.
Qed.
Lemma quote_ordinary_start text f q t : c_quote o = Some q -> unquoted o text f -> text <> q :: t.
Proof.
  intros Q U E. subst text. inversion U; subst; [unfold ordinary in *; tauto|]. destruct Distinct as [_ _ _ (_ & _ & _ & _ & D)]. eapply D; eassumption.
Qed.
Lemma run_fields txt fs : fields_text o txt fs -> forall t rest done line last, ending t rest -> (done = [] -> no_comment txt) -> (c_skip_empty o = true -> done = [] -> txt = [] -> t = []) ->
  zlen (done ++ fs) <= c_max_fields o -> Forall (fun f => zlen f <= c_max_length o) fs ->
  exists line', runs (p_next_field (txt ++ t) done line last) (POk (done ++ fs) rest line' last).
Proof.
  intro H. induction H as [text f Ft|text f texts fs Ft H IH]; intros t rest done line last E NC Sk Mf Ml; rewrite zlen_app, zlen_cons in Mf; (inversion_clear Ml as [|? ? Ml1 Ml2]);
    unfold CsvPure.p_next_field; (replace (zlen done =? c_max_fields o) with false by (pose proof (zlen_nonneg (@nil (list Z))); try pose proof (zlen_nonneg fs); lia)).
  - destruct Ft as [text f U|q text f Q B].
    + destruct (end_unquoted t rest done f line last E) as (line' & R).
      * apply (not_long f []). rewrite app_nil_r. exact Ml1.
      * intros Sk1 Dn Fn. subst f. apply Sk; auto. inversion U. reflexivity.
      * exists line'. apply (run_unquoted text f U); [intros D _; apply NC; exact D|exact Ml1|exact R].
    + rewrite <- !app_assoc. cbn [app].
      destruct (run_quoted text f B q t [] line Q (ending_not_quote q t rest Q E) Ml1) as (l1 & R1).
      { intros ->. destruct E as [(_ & _ & F)|(nl & [->| ->] & X & _)]; [exact F|discriminate X..]. }
      destruct (end_quoted t rest done f l1 last E) as (l2 & R2). exists l2. apply runs_step. cbn [CsvPure.p_step]. rewrite (class_q q Q).
      rewrite (not_long [] []) by (pose proof (zlen_nonneg f); change (zlen ([] ++ @nil Z)) with 0; lia). change (negb (zlen (@nil Z) =? 0)) with false. cbn iota. cbn [app] in R1. rewrite R1. exact R2.
  - assert (Next : forall l0, exists line', runs (p_next_field (texts ++ t) (done ++ [f]) l0 last) (POk (done ++ f :: fs) rest line' last)).
    { intro l0. rewrite (app_assoc done [f] fs : done ++ f :: fs = _). apply IH; auto; try (intros; destruct done; discriminate).
      rewrite <- app_assoc, zlen_app. cbn [app]. rewrite zlen_cons. exact Mf. }
    destruct Ft as [text f U|q text f Q B].
    + rewrite <- !app_assoc. destruct (Next line) as (line' & R). exists line'. apply (run_unquoted text f U).
      * intros D _ c t' Cc ->. apply (NC D c (t' ++ [c_sep o] ++ texts) Cc). reflexivity.
      * exact Ml1.
      * cbn [app]. apply runs_step. cbn [CsvPure.p_step]. rewrite class_sep, (not_long f []) by (rewrite app_nil_r; exact Ml1). exact R.
    + rewrite <- !app_assoc. cbn [app]. destruct (run_quoted text f B q (c_sep o :: texts ++ t) [] line Q) as (l1 & R1); [|exact Ml1|discriminate|].
      { intros t' X. injection X as X _. destruct Distinct as [_ _ (_ & _ & D & _) _]. congruence. }
      destruct (Next l1) as (line' & R). exists line'. apply runs_step. cbn [CsvPure.p_step]. rewrite (class_q q Q).
      rewrite (not_long [] []) by (pose proof (zlen_nonneg f); change (zlen ([] ++ @nil Z)) with 0; lia). change (negb (zlen (@nil Z) =? 0)) with false. cbn iota. cbn [app] in R1. rewrite R1.
      cbn [CsvPure.p_after_quoted]. rewrite class_sep. exact R.
Qed.
Lemma after_lf_line line text : ~ In LF line -> after_lf (line ++ [LF] ++ text) = text.
Proof.
  induction line as [|c line IH]; intro N; cbn [app after_lf]; [reflexivity|]. destruct (c =? LF) eqn:E; [exfalso; apply N; left; lia|]. apply IH. intro X. apply N. right. exact X.
Qed.
Lemma after_lf_none line : ~ In LF line -> after_lf line = [].
Proof.
  induction line as [|c line IH]; intro N; cbn [app after_lf]; [reflexivity|]. destruct (c =? LF) eqn:E; [exfalso; apply N; left; lia|]. apply IH. intro X. apply N. right. exact X.
Qed.
Lemma next_record_nonempty c t line : p_next_record (c :: t) line = p_next_field (c :: t) [] line line.
Proof. unfold CsvPure.p_next_record. destruct standalone; reflexivity. Qed.
Lemma run_skips text text1 : 1 <= c_max_fields o -> 0 <= c_max_length o -> skips o text text1 -> forall line, exists line1, forall res, runs (p_next_record text1 line1) res -> runs (p_next_record text line) res.
Proof.
  intros Mf Ml H. assert (F0 : (zlen (@nil (list Z)) =? c_max_fields o) = false) by (change (zlen (@nil (list Z))) with 0; lia).
  assert (L0 : too_long o [] = false) by (unfold too_long; change (zlen (@nil Z)) with 0; lia).
  induction H as [text|c ln text rest Cc Nl H IH|c ln Cc Nl|nl text rest Sk Nl H IH]; intro line.
  - exists line. auto.
  - destruct (IH (line + 1)) as (l1 & R). exists l1. intros res Rr. apply R in Rr. rewrite next_record_nonempty. unfold CsvPure.p_next_field. rewrite F0. apply runs_step. cbn [CsvPure.p_step].
    assert (Cl : class_of o c = kComment).
    { apply class_iff; [exact Distinct|]. cbn. split; [|exact Cc]. destruct Distinct as [(A & A') (B & B' & B'') (_ & _ & _ & Q) (_ & _ & _ & E & _)]. unfold ordinary. repeat split; try congruence; intro X; [eapply Q; eassumption|eapply E; eassumption]. }
    rewrite Cl. change ((zlen (@nil (list Z)) =? 0) && (zlen (@nil Z) =? 0)) with true. cbn iota. rewrite after_lf_line by exact Nl. exact Rr.
  - exists (line + 1). intros res Rr. rewrite next_record_nonempty. unfold CsvPure.p_next_field. rewrite F0. apply runs_step. cbn [CsvPure.p_step].
    assert (Cl : class_of o c = kComment).
    { apply class_iff; [exact Distinct|]. cbn. split; [|exact Cc]. destruct Distinct as [(A & A') (B & B' & B'') (_ & _ & _ & Q) (_ & _ & _ & E & _)]. unfold ordinary. repeat split; try congruence; intro X; [eapply Q; eassumption|eapply E; eassumption]. }
    rewrite Cl. change ((zlen (@nil (list Z)) =? 0) && (zlen (@nil Z) =? 0)) with true. cbn iota. rewrite after_lf_none by exact Nl. exact Rr.
  - destruct (IH (line + 1)) as (l1 & R). exists l1. intros res Rr. apply R in Rr.
    assert (N : p_newline o fails standalone text [] [] line line = p_next_record text (line + 1)) by (unfold p_newline; rewrite Sk; reflexivity).
    destruct Nl as [->| ->]; cbn [app]; rewrite next_record_nonempty; unfold CsvPure.p_next_field; rewrite F0; apply runs_step; cbn [CsvPure.p_step].
    + rewrite class_lf, L0, N. exact Rr.
    + rewrite class_cr, L0. cbn [p_after_cr]. change (LF =? LF) with true. cbn iota. rewrite N. exact Rr.
Qed.
Theorem grammar_complete text line text1 fields terminated rest : 1 <= c_max_fields o -> 0 <= c_max_length o ->
  skips o text text1 -> record_at o standalone text1 fields terminated rest -> within_limits o fields -> (terminated = false -> fails = false) ->
  exists line' last', p_record o fails standalone text line = Some (POk fields rest line' last').
Proof.
  intros Mf Ml Sk R (Lf & Ll) F. destruct (run_skips text text1 Mf Ml Sk line) as (l1 & Run).
  assert (G : exists line', runs (p_next_record text1 l1) (POk fields rest line' l1)).
  { destruct R as [txt fs nl rest Sa Ft Nl NC Se|txt fs Ft NC Ne].
    - destruct (run_fields txt fs Ft (nl ++ rest) rest [] l1 l1) as (l2 & R2); auto.
      + right. exists nl. auto.
      + intros X _ Y. specialize (Se X). congruence.
      + exists l2. cbn [app] in R2. unfold CsvPure.p_next_record. rewrite (if_false standalone) by exact Sa. destruct (txt ++ nl ++ rest) as [|c t] eqn:E; [|exact R2].
        exfalso. destruct txt; [|discriminate E]. destruct Nl as [->| ->]; discriminate E.
    - destruct (run_fields txt fs Ft [] [] [] l1 l1) as (l2 & R2); auto.
      + left. auto.
      + exists l2. rewrite app_nil_r in R2. cbn [app] in R2. unfold CsvPure.p_next_record. destruct (bool_cases standalone) as [Sa|Sa]; [rewrite (if_true standalone) by exact Sa; exact R2|rewrite (if_false standalone) by exact Sa].
        destruct txt; [exfalso; apply Ne; auto|exact R2]. }
  destruct G as (l2 & G). exists l2, l1. apply p_record_runs. apply Run. exact G.
Qed.
Theorem grammar_end_complete text line : 1 <= c_max_fields o -> 0 <= c_max_length o -> skips o text [] -> standalone = false -> fails = false ->
  exists line', p_record o fails standalone text line = Some (PEnd line').
Proof.
  intros Mf Ml Sk Sa F. destruct (run_skips text [] Mf Ml Sk line) as (l1 & Run). exists l1. apply p_record_runs. apply Run. unfold CsvPure.p_next_record. rewrite (if_false standalone) by exact Sa.
  rewrite at_end_false by exact F. apply runs_done.
Qed.

(** ** Soundness *)
Lemma count_lf_app a b : count_lf (a ++ b) = count_lf a + count_lf b.
Proof. unfold count_lf. rewrite filter_app, zlen_app. reflexivity. Qed.
Lemma count_lf_cons c a : count_lf (c :: a) = (if c =? LF then 1 else 0) + count_lf a.
Proof. unfold count_lf. cbn [filter]. rewrite (Z.eqb_sym c LF). destruct (LF =? c); [rewrite zlen_cons|]; lia. Qed.
Lemma count_lf_other c a : c <> LF -> count_lf (c :: a) = count_lf a.
Proof. intro N. rewrite count_lf_cons. replace (c =? LF) with false by lia. lia. Qed.
Lemma count_lf_lf a : count_lf (LF :: a) = 1 + count_lf a.
Proof. rewrite count_lf_cons. reflexivity. Qed.
Lemma quoted_sound n : forall text field line f' rest line', (length text <= n)%nat -> p_quoted text field line = QDone f' rest line' ->
  exists q b f, c_quote o = Some q /\ f' = field ++ f /\ text = b ++ [q] ++ rest /\ quoted_body o b f /\ zlen f' <= c_max_length o /\
    (c_escape o = None -> line' = line + count_lf b) /\ (rest = [] -> fails = false).
Proof.
  induction n as [|n IH]; intros text field line f' rest line' L; destruct text as [|c t]; cbn [CsvPure.p_quoted length] in *; try lia.
  1, 2: unfold at_end; destruct (too_long o field), fails; discriminate.
  pose proof (class_spec o c Distinct) as M. destruct Distinct as [_ _ (D6 & D7 & D8 & D9) (D10 & D11 & D12 & D13 & D14)].
  assert (Char : forall l, c_quote o <> Some c -> c_escape o <> Some c -> (c_escape o = None -> l = line + count_lf [c]) -> p_quoted t (field ++ [c]) l = QDone f' rest line' ->
    exists q b f, c_quote o = Some q /\ f' = field ++ f /\ c :: t = b ++ [q] ++ rest /\ quoted_body o b f /\ zlen f' <= c_max_length o /\
    (c_escape o = None -> line' = line + count_lf b) /\ (rest = [] -> fails = false)).
  { intros l Nq Ne Ll E. apply IH in E; [|lia]. destruct E as (q & b & f & Q & -> & -> & B & Lm & Li & F). exists q, (c :: b), (c :: f). split; [exact Q|]. split; [rewrite <- app_assoc; reflexivity|].
    split; [reflexivity|]. split; [constructor; assumption|]. split; [exact Lm|]. split; [|exact F]. intro X. rewrite (Li X), (Ll X). change (c :: b) with ([c] ++ b). rewrite count_lf_app. lia. }
  assert (Ord : ordinary o c -> count_lf [c] = 0) by (intros (N & _); rewrite count_lf_other by exact N; reflexivity).
  destruct (class_of o c) eqn:Cl; cbn [class_meaning] in M.
  - apply Char; [unfold ordinary in *; tauto..|]. intros _. rewrite Ord by tauto. lia.
  - subst c. apply Char; [tauto..|]. reflexivity.
  - subst c. apply Char; [tauto..|]. intros _. cbn. lia.
  - apply Char; [unfold ordinary in *; tauto..|]. intros _. rewrite Ord by tauto. lia.
  - subst c. apply Char; [tauto..|]. intros _. destruct Distinct as [_ (N & _) _ _]. rewrite count_lf_other by exact N. cbn. lia.
  - destruct (too_long o field) eqn:TL; [discriminate|]. destruct t as [|c2 t2].
    + unfold at_end. destruct fails eqn:F; [discriminate|]. intro E. injection E as <- <- <-. exists c, [], []. rewrite app_nil_r. unfold too_long in TL. repeat split; auto; [constructor|lia|cbn; lia].
    + assert (Qc : quote_char o = c) by (unfold quote_char; rewrite M; reflexivity). rewrite Qc. destruct (c2 =? c) eqn:Q.
      * assert (c2 = c) by lia. subst c2. intro E. apply IH in E; [|cbn in L; lia]. destruct E as (q & b & f & Q2 & -> & -> & B & Lm & Li & F). assert (q = c) by congruence. subst q.
        exists c, (c :: c :: b), (c :: f). split; [exact M|]. split; [rewrite <- app_assoc; reflexivity|]. split; [reflexivity|]. split; [apply quoted_doubled; assumption|]. split; [exact Lm|]. split; [|exact F].
        intro X. rewrite (Li X). rewrite !count_lf_other by congruence. reflexivity.
      * intro E. injection E as <- <- <-. exists c, [], []. rewrite app_nil_r. unfold too_long in TL. repeat split; auto; [constructor|lia|cbn; lia|discriminate].
  - destruct (too_long o field) eqn:TL; [discriminate|]. destruct t as [|c2 t2]; [unfold at_end; destruct fails; discriminate|].
    intro E. apply IH in E; [|cbn in L; lia]. destruct E as (q & b & f & Q2 & -> & -> & B & Lm & Li & F). exists q, (c :: c2 :: b), (c2 :: f).
    split; [exact Q2|]. split; [rewrite <- app_assoc; reflexivity|]. split; [reflexivity|]. split; [apply quoted_escaped; assumption|]. split; [exact Lm|]. split; [congruence|exact F].
Qed.
Definition fields_from (fresh : bool) (txt f : list Z) (fs : list (list Z)) : Prop :=
  exists u more, (if fresh then field_text o u f else unquoted o u f) /\ txt = u ++ more /\ ((more = [] /\ fs = []) \/ exists m, more = c_sep o :: m /\ fields_text o m fs).
Lemma fields_from_text txt f fs : fields_from true txt f fs -> fields_text o txt (f :: fs).
Proof.
  intros (u & more & Ft & -> & [(-> & ->)|(m & -> & Fs)]); [rewrite app_nil_r; constructor; exact Ft|]. exact (fields_more o u f m fs Ft Fs).
Qed.
Definition is_nil {A} (l : list A) : bool := match l with [] => true | _ => false end.
Definition here (text : list Z) (done : list (list Z)) (field : list Z) (fields : list (list Z)) (rest : list Z) (line line' : Z) : Prop :=
  exists txt t f fs, text = txt ++ t /\ ending t rest /\ fields = done ++ (field ++ f) :: fs /\ fields_from (is_nil field) txt f fs /\
    (done = [] -> field = [] -> no_comment txt /\ (c_skip_empty o = true -> t <> [] -> txt <> [])) /\
    zlen fields <= c_max_fields o /\ Forall (fun x => zlen x <= c_max_length o) ((field ++ f) :: fs) /\ (c_escape o = None -> line' = line + count_lf txt + 1).
Definition found (text : list Z) (line : Z) (fields : list (list Z)) (rest : list Z) (line' last' : Z) : Prop :=
  exists text1, skips o text text1 /\ (standalone = false -> text1 <> [] /\ exists skipped, text = skipped ++ text1 /\ last' = line + count_lf skipped) /\
    here text1 [] [] fields rest last' line'.
Lemma zlen_zero {A} (l : list A) : (zlen l =? 0) = is_nil l.
Proof. destruct l; [reflexivity|]. rewrite zlen_cons. pose proof (zlen_nonneg l). replace (1 + zlen l =? 0) with false by lia. reflexivity. Qed.
Definition loop_sound (fuel : nat) : Prop := forall text done field line last fields rest line' last', zlen done < c_max_fields o ->
  p_loop fuel (PScan text done field line last) = Some (POk fields rest line' last') ->
  (here text done field fields rest line line' /\ last' = last) \/ (done = [] /\ field = [] /\ found text line fields rest line' last').
Lemma next_field_sound fuel text done line last fields rest line' last' : loop_sound fuel -> zlen done <= c_max_fields o ->
  p_loop fuel (p_next_field text done line last) = Some (POk fields rest line' last') ->
  (here text done [] fields rest line line' /\ last' = last) \/ (done = [] /\ found text line fields rest line' last').
Proof.
  intros IH Mf. unfold CsvPure.p_next_field. destruct (zlen done =? c_max_fields o) eqn:E; [destruct fuel; discriminate|]. intro R. apply IH in R; [|lia]. tauto.
Qed.
Lemma next_record_sound fuel text line fields rest line' last' : loop_sound fuel -> 0 <= c_max_fields o ->
  p_loop fuel (p_next_record text line) = Some (POk fields rest line' last') -> found text line fields rest line' last'.
Proof.
  intros IH Mf. assert (F : (standalone = false -> text <> []) -> p_loop fuel (p_next_field text [] line line) = Some (POk fields rest line' last') -> found text line fields rest line' last').
  { intros Ne R. apply next_field_sound in R; [|exact IH|exact Mf]. destruct R as [(H & ->)|(_ & H)]; [|exact H]. exists text. split; [constructor|]. split; [|exact H].
    intro Sa. split; [auto|]. exists []. split; [reflexivity|]. cbn. lia. }
  unfold CsvPure.p_next_record. destruct (bool_cases standalone) as [Sa|Sa]; [rewrite (if_true standalone) by exact Sa|rewrite (if_false standalone) by exact Sa].
  - apply F. congruence.
  - destruct text as [|c t]; [|apply F; discriminate]. unfold at_end. destruct fails; destruct fuel; discriminate.
Qed.
Lemma after_lf_skip c t : c_comment o = Some c -> (exists ln, ~ In LF ln /\ t = ln /\ after_lf t = []) \/ (exists ln, ~ In LF ln /\ t = ln ++ [LF] ++ after_lf t).
Proof.
  intros _. induction t as [|d t IH]; [left; exists []; auto|]. cbn [after_lf]. destruct (d =? LF) eqn:E.
  - right. exists []. split; [auto|]. replace d with LF by lia. reflexivity.
  - assert (d <> LF) by lia. destruct IH as [(ln & N & -> & A)|(ln & N & A)].
    + left. exists (d :: ln). split; [|auto]. intros [X|X]; [congruence|tauto].
    + right. exists (d :: ln). split; [intros [X|X]; [congruence|tauto]|]. cbn [app]. f_equal. exact A.
Qed.
Lemma count_lf_none l : ~ In LF l -> count_lf l = 0.
Proof. induction l as [|c l IH]; intro N; [reflexivity|]. rewrite count_lf_other by (intro; subst; apply N; left; reflexivity). apply IH. intro X. apply N. right. exact X. Qed.
(** Skipping extends what was found. *)
Lemma found_more before text line fields rest line' last' : (forall t1, skips o text t1 -> skips o (before ++ text) t1) ->
  found text (line + count_lf before) fields rest line' last' -> found (before ++ text) line fields rest line' last'.
Proof.
  intros Sk (text1 & S1 & H1 & H2). exists text1. split; [auto|]. split; [|exact H2]. intro Sa. destruct (H1 Sa) as (Ne & sk & -> & ->). split; [exact Ne|]. exists (before ++ sk). rewrite app_assoc. split; [reflexivity|]. rewrite count_lf_app. lia.
Qed.
Lemma here_unquoted pre c t done field fields rest line line' : here t done (field ++ [c]) fields rest line line' -> pre <> [] ->
  (forall u f, unquoted o u f -> unquoted o (pre ++ u) (c :: f)) -> (done = [] -> field = [] -> forall x, no_comment (pre ++ x)) -> (c_escape o = None -> count_lf pre = 0) ->
  here (pre ++ t) done field fields rest line line'.
Proof.
  intros (txt & t' & f & fs & -> & E & -> & (u & more & U & -> & Mo) & _ & L1 & L2 & Li) Np Up NC Lp.
  replace (is_nil (field ++ [c])) with false in U by (destruct field; reflexivity). rewrite <- (app_assoc field [c] f : field ++ c :: f = _) in *.
  exists (pre ++ u ++ more), t', (c :: f), fs. split; [rewrite <- !app_assoc; reflexivity|]. split; [exact E|]. split; [reflexivity|]. split.
  - exists (pre ++ u), more. split; [|split; [apply app_assoc|exact Mo]]. destruct (is_nil field); [apply field_unquoted|]; apply Up; exact U.
  - split; [intros D1 D2; split; [apply NC; assumption|intros _ _ X; destruct pre; [congruence|discriminate X]]|]. split; [exact L1|]. split; [exact L2|].
    intro X. rewrite (Li X), !count_lf_app, (Lp X). lia.
Qed.
Lemma here_end t done field rest line : ending t rest -> too_long o field = false -> zlen done < c_max_fields o ->
  (c_skip_empty o = true -> done = [] -> field = [] -> t = []) -> here t done field (done ++ [field]) rest line (line + 1).
Proof.
  intros E TL Mf Sk. exists [], t, [], []. rewrite app_nil_r. split; [reflexivity|]. split; [exact E|]. split; [reflexivity|]. split.
  - exists [], []. split; [destruct (is_nil field); [apply field_unquoted|]; constructor|]. split; [reflexivity|left; auto].
  - split; [|split; [rewrite zlen_app; change (zlen [field]) with 1; lia|split; [constructor; [unfold too_long in TL; lia|constructor]|intros _; cbn; lia]]].
    intros D1 D2. split; [intros c t' _; discriminate|]. intros S1 Nt. exfalso. auto.
Qed.
Lemma here_sep t done field fields rest line line' : here t (done ++ [field]) [] fields rest line line' -> too_long o field = false ->
  here (c_sep o :: t) done field fields rest line line'.
Proof.
  intros (txt & t' & f & fs & -> & E & -> & Fr & _ & L1 & L2 & Li) TL. cbn [is_nil] in Fr. apply fields_from_text in Fr. cbn [app] in *.
  exists (c_sep o :: txt), t', [], (f :: fs). split; [reflexivity|]. split; [exact E|]. split; [rewrite app_nil_r, <- app_assoc; reflexivity|]. split.
  - exists [], (c_sep o :: txt). split; [destruct (is_nil field); [apply field_unquoted|]; constructor|]. split; [reflexivity|right; eauto].
  - destruct Distinct as [_ (N1 & N2 & N3) _ _]. split; [intros _ _; split; [intros c t0 Cc X; congruence|discriminate]|]. split; [exact L1|]. split; [rewrite app_nil_r; constructor; [unfold too_long in TL; lia|exact L2]|].
    intro X. rewrite (Li X), count_lf_other by exact N1. reflexivity.
Qed.
(** What follows a quoted field *)
Lemma here_quoted q b f t done fields rest line line' more (fs : list (list Z)) m : c_quote o = Some q -> quoted_body o b f -> zlen f <= c_max_length o ->
  more ++ t = m -> ending t rest -> fields = done ++ f :: fs -> ((more = [] /\ fs = []) \/ exists m, more = c_sep o :: m /\ fields_text o m fs) ->
  zlen fields <= c_max_fields o -> Forall (fun x => zlen x <= c_max_length o) fs -> (c_escape o = None -> line' = line + count_lf b + count_lf more + 1) ->
  here (q :: b ++ [q] ++ m) done [] fields rest line line'.
Proof.
  intros Q B Lf <- E -> Mo L1 L2 Li. exists (([q] ++ b ++ [q]) ++ more), t, f, fs. split; [cbn; rewrite <- !app_assoc; reflexivity|]. split; [exact E|]. split; [reflexivity|]. split.
  - exists ([q] ++ b ++ [q]), more. split; [apply field_quoted; assumption|]. auto.
  - destruct Distinct as [_ _ (N1 & N2 & N3 & N4) _]. split; [intros _ _; split; [intros c t0 Cc X; injection X as X _; subst c; eapply N4; eassumption|discriminate]|].
    split; [exact L1|]. split; [constructor; assumption|]. intro X. rewrite (Li X), !count_lf_app. rewrite (count_lf_other q []) by congruence. cbn. lia.
Qed.
Lemma after_cr_sound fuel t k res : p_loop fuel (p_after_cr fails t k) = Some res -> (forall e, res <> PFail e) -> exists t', t = LF :: t' /\ p_loop fuel (k t') = Some res.
Proof.
  unfold p_after_cr, at_end. intros E N. destruct t as [|c t'].
  - exfalso. destruct fails; destruct fuel; cbn in E; injection E as <-; eapply N; reflexivity.
  - destruct (c =? LF) eqn:C; [exists t'; split; [f_equal; lia|exact E]|]. exfalso. destruct fuel; cbn in E; injection E as <-; eapply N; reflexivity.
Qed.
Lemma done_sound fuel t done field line last fields rest line' last' : p_loop fuel (p_done standalone t done field line last) = Some (POk fields rest line' last') ->
  standalone = false /\ fields = done ++ [field] /\ rest = t /\ line' = line + 1 /\ last' = last.
Proof.
  unfold p_done. destruct (bool_cases standalone) as [Sa|Sa]; [rewrite (if_true standalone) by exact Sa|rewrite (if_false standalone) by exact Sa]; destruct fuel; cbn; intro E; try discriminate E; injection E as <- <- <- <-; auto.
Qed.
Lemma newline_sound fuel nl t done field line last fields rest line' last' : loop_sound fuel -> zlen done < c_max_fields o -> line_break nl -> too_long o field = false ->
  p_loop fuel (p_newline o fails standalone t done field line last) = Some (POk fields rest line' last') ->
  (here (nl ++ t) done field fields rest line line' /\ last' = last) \/ (done = [] /\ field = [] /\ found (nl ++ t) line fields rest line' last').
Proof.
  intros IH Mf Nl TL. unfold p_newline. rewrite !zlen_zero. destruct (c_skip_empty o && is_nil done && is_nil field) eqn:Sk.
  - intro R. assert (Sk' : c_skip_empty o = true /\ done = [] /\ field = []) by (destruct (c_skip_empty o), done, field; try discriminate Sk; auto). destruct Sk' as (S1 & -> & ->).
    apply next_record_sound in R; [|exact IH|change (zlen (@nil (list Z))) with 0 in Mf; lia]. right. split; [reflexivity|]. split; [reflexivity|]. apply found_more.
    + intros t1 H. apply skips_empty; assumption.
    + replace (count_lf nl) with 1 by (destruct Nl as [->| ->]; reflexivity). exact R.
  - intro R. apply done_sound in R. destruct R as (Sa & -> & -> & -> & ->). left. split; [|reflexivity]. apply here_end; auto.
    + right. exists nl. auto.
    + intros S1 -> ->. rewrite S1 in Sk. discriminate Sk.
Qed.
Lemma skips_nil_gen text t : skips o text t -> text = [] -> t = [].
Proof. intros H E. destruct H as [text|c ln text rest|c ln|nl text rest Sk Nl H]; [exact E|discriminate E|reflexivity|]. destruct Nl as [->| ->]; discriminate E. Qed.
Lemma skips_nil t : skips o [] t -> t = []. Proof. intro H. eapply skips_nil_gen; [exact H|reflexivity]. Qed.
Lemma p_loop_sound fuel : loop_sound fuel.
Proof.
  induction fuel as [|fuel IH]; intros text done field line last fields rest line' last' Mf; cbn [CsvPure.p_loop]; [discriminate|].
  destruct text as [|c t]; cbn [CsvPure.p_step].
  { intro R. unfold at_end in R. destruct (too_long o field) eqn:TL; [destruct fuel; discriminate R|]. destruct fails eqn:F; [destruct fuel; discriminate R|].
    assert (R' : POk (done ++ [field]) [] (line + 1) last = POk fields rest line' last') by (destruct fuel; injection R; congruence). injection R' as <- <- <- <-. left. split; [|reflexivity].
    apply here_end; auto. left. auto. }
  pose proof (class_spec o c Distinct) as M.
  assert (Char : ordinary o c -> (done = [] -> field = [] -> c_comment o <> Some c) -> p_loop fuel (PScan t done (field ++ [c]) line last) = Some (POk fields rest line' last') ->
    (here (c :: t) done field fields rest line line' /\ last' = last) \/ (done = [] /\ field = [] /\ found (c :: t) line fields rest line' last')).
  { intros Or NC R. apply IH in R; [|exact Mf]. destruct R as [(H & ->)|(_ & X & _)]; [|destruct field; discriminate X]. left. split; [|reflexivity].
    apply (here_unquoted [c] c); [exact H|discriminate|intros u f U; apply unquoted_char; assumption|intros D1 D2 x c' t' Cc X; injection X as <- _; exact (NC D1 D2 Cc)|].
    intros _. rewrite count_lf_other by apply Or. reflexivity. }
  assert (Long : forall k, p_loop fuel (if too_long o field then PDone (PFail EMaxLength) else k) = Some (POk fields rest line' last') -> too_long o field = false /\ p_loop fuel k = Some (POk fields rest line' last')).
  { intros k R. destruct (too_long o field); [destruct fuel; discriminate R|auto]. }
  destruct (class_of o c) eqn:Cl; cbn [class_meaning] in M.
  - apply Char; tauto.
  - subst c. intro R. apply Long in R. destruct R as (TL & R). apply (newline_sound fuel [LF]) in R; auto. left. reflexivity.
  - subst c. intro R. apply Long in R. destruct R as (TL & R). apply after_cr_sound in R; [|discriminate]. destruct R as (t' & -> & R). apply (newline_sound fuel [CR; LF]) in R; auto. right. reflexivity.
  - rewrite !zlen_zero. destruct (is_nil done && is_nil field) eqn:Z0; [|apply Char; [tauto|intros -> ->; discriminate Z0]].
    assert (X : done = [] /\ field = []) by (destruct done, field; try discriminate Z0; auto). destruct X as [-> ->]. intro R. apply next_record_sound in R; [|exact IH|change (zlen (@nil (list Z))) with 0 in Mf; lia].
    right. split; [reflexivity|]. split; [reflexivity|]. destruct M as [_ Cc]. destruct (after_lf_skip c t Cc) as [(ln & N & -> & A)|(ln & N & A)].
    + rewrite A in R. destruct R as (text1 & S1 & H1 & H2). apply skips_nil in S1. subst text1.
      exists []. split; [apply skips_last_comment; assumption|]. split; [|exact H2]. intro Sa. destruct (H1 Sa) as (X & _). congruence.
    + rewrite A. replace (c :: ln ++ [LF] ++ after_lf t) with ((c :: ln ++ [LF]) ++ after_lf t) by (cbn; rewrite <- app_assoc; reflexivity). apply found_more.
      * intros t1 H. cbn. rewrite <- app_assoc. apply skips_comment; assumption.
      * assert (c <> LF) by (destruct Distinct as [(D & _) _ _ _]; congruence). rewrite count_lf_other by assumption. rewrite count_lf_app, count_lf_none by exact N. exact R.
  - subst c. intro R. apply Long in R. destruct R as (TL & R). apply next_field_sound in R; [|exact IH|rewrite zlen_app; change (zlen [field]) with 1; lia].
    destruct R as [(H & ->)|(X & _)]; [|destruct done; discriminate X]. left. split; [|reflexivity]. apply here_sep; assumption.
  - intro R. apply Long in R. destruct R as (TL & R). rewrite zlen_zero in R. destruct field as [|x field]; [|destruct fuel; discriminate R]. cbn [is_nil negb] in R.
    destruct (p_quoted t [] line) as [f t' l|e] eqn:Q; [|destruct fuel; discriminate R]. apply (quoted_sound (length t)) in Q; [|lia].
    destruct Q as (q & b & f0 & Q & -> & -> & B & Lf & Li & F). assert (q = c) by congruence. subst q. cbn [app] in R, Lf. left.
    assert (End : forall t0, ending t0 rest -> t' = t0 -> fields = done ++ [f0] -> line' = l + 1 -> here (c :: b ++ [c] ++ t') done [] fields rest line line').
    { intros t0 E <- -> ->. apply (here_quoted c b f0 t' done (done ++ [f0]) rest line (l + 1) [] []); auto.
      - rewrite zlen_app. change (zlen [f0]) with 1. lia.
      - intro X. rewrite (Li X). cbn. lia. }
    destruct t' as [|c2 t2]; cbn [CsvPure.p_after_quoted] in R.
    + rewrite at_end_false in R by auto. assert (R' : POk (done ++ [f0]) [] (l + 1) last = POk fields rest line' last') by (destruct fuel; injection R; congruence). injection R' as <- <- <- <-.
      split; [|reflexivity]. apply (End []); auto. left. auto.
    + pose proof (class_spec o c2 Distinct) as M2. destruct (class_of o c2); cbn [class_meaning] in M2; try (destruct fuel; discriminate R).
      * subst c2. apply done_sound in R. destruct R as (Sa & -> & -> & -> & ->). split; [|reflexivity]. apply (End (LF :: t2)); auto. right. exists [LF]. split; [left; reflexivity|auto].
      * subst c2. apply after_cr_sound in R; [|discriminate]. destruct R as (t3 & -> & R). apply done_sound in R. destruct R as (Sa & -> & -> & -> & ->). split; [|reflexivity].
        apply (End (CR :: LF :: t3)); auto. right. exists [CR; LF]. split; [right; reflexivity|auto].
      * subst c2. apply next_field_sound in R; [|exact IH|rewrite zlen_app; change (zlen [f0]) with 1; lia].
        destruct R as [(H & ->)|(X & _)]; [|destruct done; discriminate X]. split; [|reflexivity].
        destruct H as (txt & t3 & f & fs & -> & E & Ef & Fr & _ & L1 & L2 & Li2). cbn [is_nil] in Fr. apply fields_from_text in Fr. cbn [app] in Ef, L2.
        assert (Ns : c_sep o <> LF) by (destruct Distinct as [_ (N & _) _ _]; exact N).
        apply (here_quoted c b f0 t3 done fields rest line line' (c_sep o :: txt) (f :: fs)); auto.
        -- rewrite Ef, <- app_assoc. reflexivity.
        -- right. eauto.
        -- intro X. rewrite (Li2 X), (Li X), count_lf_other by exact Ns. reflexivity.
  - intro R. apply Long in R. destruct R as (TL & R). destruct t as [|c2 t2]; [unfold at_end in R; destruct fails; destruct fuel; discriminate R|].
    apply IH in R; [|exact Mf]. destruct R as [(H & ->)|(_ & X & _)]; [|destruct field; discriminate X]. left. split; [|reflexivity].
    apply (here_unquoted [c; c2] c2); [exact H|discriminate|intros u f U; apply unquoted_escaped; assumption| |congruence].
    intros D1 D2 x c' t' Cc X. injection X as <- _. destruct Distinct as [_ _ _ (_ & _ & _ & D & _)]. eapply D; eassumption.
Qed.
Theorem grammar_sound text line fields rest line' last' : 0 <= c_max_fields o -> p_record o fails standalone text line = Some (POk fields rest line' last') ->
  exists text1 terminated, skips o text text1 /\ record_at o standalone text1 fields terminated rest /\ within_limits o fields /\ (terminated = false -> fails = false) /\
    (standalone = false -> exists skipped, text = skipped ++ text1 /\ last' = line + count_lf skipped) /\
    (c_escape o = None -> exists consumed, text1 = consumed ++ rest /\ line' = last' + count_lf consumed + (if terminated then 0 else 1)).
Proof.
  intros Mf R. apply next_record_sound in R; [|apply p_loop_sound|exact Mf]. destruct R as (text1 & S1 & H1 & txt & t & f & fs & -> & E & -> & Fr & NC & L1 & L2 & Li).
  cbn [app is_nil] in *. apply fields_from_text in Fr. destruct (NC eq_refl eq_refl) as [NC1 NC2]. exists (txt ++ t). destruct E as [(-> & -> & F)|(nl & Nl & -> & Sa)].
  - exists false. rewrite app_nil_r in *. split; [exact S1|]. split; [constructor; auto; intro X; apply (H1 X)|]. split; [split; assumption|]. split; [auto|]. split; [intro X; destruct (H1 X) as (_ & H); exact H|].
    intro X. exists txt. rewrite app_nil_r. split; [reflexivity|]. exact (Li X).
  - exists true. split; [exact S1|]. split; [constructor; auto; intros X ->; apply (NC2 X); [destruct Nl as [->| ->]; discriminate|reflexivity]|]. split; [split; assumption|]. split; [discriminate|]. split; [intro X; destruct (H1 X) as (_ & H); exact H|].
    intro X. exists (txt ++ nl). rewrite <- app_assoc. split; [reflexivity|]. rewrite (Li X), count_lf_app. replace (count_lf nl) with 1 by (destruct Nl as [->| ->]; reflexivity). lia.
Qed.
(** The end *)
Lemma p_loop_end fuel : forall text done field line last line', p_loop fuel (PScan text done field line last) = Some (PEnd line') ->
  done = [] /\ field = [] /\ skips o text [] /\ fails = false /\ standalone = false.
Proof.
  induction fuel as [|fuel IH]; intros text done field line last line'; cbn [CsvPure.p_loop]; [discriminate|].
  assert (NF : forall t d l l', p_loop fuel (p_next_field t d l l') = Some (PEnd line') -> d = [] /\ skips o t [] /\ fails = false /\ standalone = false).
  { intros t d l l'. unfold CsvPure.p_next_field. destruct (_ =? _); [destruct fuel; discriminate|]. intro R. apply IH in R. tauto. }
  assert (NR : forall t l, p_loop fuel (p_next_record t l) = Some (PEnd line') -> skips o t [] /\ fails = false /\ standalone = false).
  { intros t l. unfold CsvPure.p_next_record. destruct (bool_cases standalone) as [Sa|Sa]; [rewrite (if_true standalone) by exact Sa; intro R; apply NF in R; tauto|rewrite (if_false standalone) by exact Sa].
    destruct t as [|c t]; [|intro R; apply NF in R; tauto]. destruct (bool_cases fails) as [Fa|Fa]; [rewrite at_end_true by exact Fa; destruct fuel; discriminate|]. intros _. split; [constructor|auto]. }
  assert (Dn : forall t d f l l', p_loop fuel (p_done standalone t d f l l') <> Some (PEnd line')).
  { intros t d f l l'. unfold p_done. destruct (bool_cases standalone) as [Sa|Sa]; [rewrite (if_true standalone) by exact Sa|rewrite (if_false standalone) by exact Sa]; destruct fuel; discriminate. }
  assert (Char : forall t c l l', p_loop fuel (PScan t done (field ++ [c]) l l') <> Some (PEnd line')).
  { intros t c l l' R. apply IH in R. destruct R as (_ & X & _). destruct field; discriminate X. }
  destruct text as [|c t]; cbn [CsvPure.p_step].
  { intro R. unfold at_end in R. destruct (too_long o field); [destruct fuel; discriminate R|]. destruct fails; destruct fuel; discriminate R. }
  assert (Long : forall k, p_loop fuel (if too_long o field then PDone (PFail EMaxLength) else k) = Some (PEnd line') -> p_loop fuel k = Some (PEnd line')).
  { intros k R. destruct (too_long o field); [destruct fuel; discriminate R|auto]. }
  assert (Newline : forall nl t', line_break nl -> c :: t = nl ++ t' -> p_loop fuel (p_newline o fails standalone t' done field line last) = Some (PEnd line') ->
    done = [] /\ field = [] /\ skips o (c :: t) [] /\ fails = false /\ standalone = false).
  { intros nl t' Nl -> R. unfold p_newline in R. rewrite !zlen_zero in R. destruct (c_skip_empty o) eqn:S1; cbn [andb] in R; [|exfalso; eapply Dn; exact R].
    destruct done; [|exfalso; eapply Dn; exact R]. destruct field; [|exfalso; eapply Dn; exact R]. cbn [is_nil andb] in R. apply NR in R. destruct R as (R1 & R2). repeat (split; [reflexivity|]). split; [apply skips_empty; assumption|exact R2]. }
  pose proof (class_spec o c Distinct) as M. destruct (class_of o c) eqn:Cl; cbn [class_meaning] in M.
  - intro R. exfalso. eapply Char. exact R.
  - subst c. intro R. apply Long in R. apply (Newline [LF] t); auto. left. reflexivity.
  - subst c. intro R. apply Long in R. apply after_cr_sound in R; [|discriminate]. destruct R as (t' & -> & R). apply (Newline [CR; LF] t'); auto. right. reflexivity.
  - rewrite !zlen_zero. destruct (is_nil done && is_nil field) eqn:Z0; [|intro R; exfalso; eapply Char; exact R].
    assert (X : done = [] /\ field = []) by (destruct done, field; try discriminate Z0; auto). destruct X as [-> ->]. intro R. apply NR in R. destruct R as (R1 & R2). repeat (split; [reflexivity|]). split; [|exact R2].
    destruct M as [_ Cc]. destruct (after_lf_skip c t Cc) as [(ln & N & -> & A)|(ln & N & A)]; [apply skips_last_comment; assumption|]. rewrite A. apply skips_comment; assumption.
  - intro R. apply Long in R. apply NF in R. destruct R as (X & _). destruct done; discriminate X.
  - intro R. apply Long in R. exfalso. destruct (negb (zlen field =? 0)); [destruct fuel; discriminate R|]. destruct (p_quoted t [] line) as [f t' l|e]; [|destruct fuel; discriminate R].
    destruct t' as [|c2 t2]; cbn [CsvPure.p_after_quoted] in R; [unfold at_end in R; destruct fails; destruct fuel; discriminate R|].
    destruct (class_of o c2); try (destruct fuel; discriminate R).
    + eapply Dn. exact R.
    + apply after_cr_sound in R; [|discriminate]. destruct R as (t' & -> & R). eapply Dn. exact R.
    + apply NF in R. destruct R as (X & _). destruct done; discriminate X.
  - intro R. apply Long in R. exfalso. destruct t as [|c2 t2]; [unfold at_end in R; destruct fails; destruct fuel; discriminate R|]. eapply Char. exact R.
Qed.
Theorem grammar_end_sound text line line' : p_record o fails standalone text line = Some (PEnd line') -> skips o text [] /\ fails = false /\ standalone = false.
Proof.
  unfold p_record, CsvPure.p_next_record. assert (NF : forall fuel t d l l', p_loop fuel (p_next_field t d l l') = Some (PEnd line') -> skips o t [] /\ fails = false /\ standalone = false).
  { intros fuel t d l l'. unfold CsvPure.p_next_field. destruct (_ =? _); [destruct fuel; discriminate|]. intro R. apply p_loop_end in R. tauto. }
  destruct (bool_cases standalone) as [Sa|Sa]; [rewrite (if_true standalone) by exact Sa; apply NF|rewrite (if_false standalone) by exact Sa].
  destruct text as [|c t]; [|apply NF]. destruct (bool_cases fails) as [Fa|Fa]; [rewrite at_end_true by exact Fa; discriminate|]. intros _. split; [constructor|auto].
Qed.
End Grammar.
