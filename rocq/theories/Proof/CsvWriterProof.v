(** What CsvWriter writes is in the grammar of Spec/CsvSpec.v.  Model/Csv.v *)
From Verif Require Import Base.Bytes Model.BufferedSource Model.Lines Model.Csv Spec.CsvSpec Proof.SourceProof Proof.CsvPure Proof.CsvLockstep Proof.CsvGrammar.

(** ** Quoting *)
Definition double (q : Z) (l : list Z) : list Z := flat_map (fun c => if c =? q then [q; q] else [c]) l.
Lemma double_app q a b : double q (a ++ b) = double q a ++ double q b.
Proof. apply flat_map_app. Qed.
Lemma double_none q l : ~ In q l -> double q l = l.
Proof.
  unfold double. induction l as [|c l IH]; intro N; [reflexivity|]. cbn. destruct (c =? q) eqn:E; [exfalso; apply N; left; lia|]. cbn. f_equal. apply IH. intro. apply N. right. assumption.
Qed.
Lemma write_quoted_loop_ok fuel : forall q field start next, 0 <= start <= next -> next <= zlen field -> zlen field - next < Z.of_nat fuel ->
  write_quoted_loop fuel q field start next = Some (zslice start (next - start) field ++ double q (zdrop next field)).
Proof.
  induction fuel as [|fuel IH]; intros q field start next H1 H2 L; [pose proof (zlen_nonneg field); lia|]. cbn [write_quoted_loop].
  assert (Sl : forall a b, 0 <= a <= b -> zslice a (b - a) field ++ zdrop b field = zdrop a field).
  { intros a b Hab. unfold zslice. rewrite <- (ztake_zdrop (b - a) (zdrop a field)) at 2. rewrite zdrop_zdrop by lia. do 2 f_equal. lia. }
  destruct (index_of_byte q (zdrop next field)) as [i|] eqn:E; cbn [option_map].
  - apply index_of_byte_some in E. destruct E as (Hi & B & N). rewrite zlen_zdrop in Hi. rewrite IH by lia. cbn [option_map]. f_equal.
    pose proof (byte_at_split i (zdrop next field) q ltac:(lia) B) as Sp. rewrite zdrop_zdrop in Sp by lia. replace (i + 1 + next) with (next + i + 1) in Sp by lia.
    assert (Dn : double q (zdrop next field) = ztake i (zdrop next field) ++ q :: q :: double q (zdrop (next + i + 1) field)).
    { rewrite Sp at 1. rewrite double_app. rewrite (double_none q (ztake i (zdrop next field))) by exact N. f_equal. cbn [double flat_map]. rewrite Z.eqb_refl. reflexivity. }
    rewrite Dn.
    assert (A : zslice start (next + i + 1 - start) field = zslice start (next - start) field ++ ztake i (zdrop next field) ++ [q]).
    { apply (app_inv_zlen _ (zdrop (next + i + 1) field) _ (zdrop (next + i + 1) field)).
      - rewrite Sl by lia. rewrite <- !app_assoc. cbn [app]. rewrite <- Sp. symmetry. apply Sl. lia.
      - unfold zslice. rewrite !zlen_app, !zlen_ztake, !zlen_zdrop. change (zlen [q]) with 1. lia. }
    rewrite A. assert (Bq : zslice (next + i) (next + i + 1 - (next + i)) field = [q]).
    { unfold zslice. replace (next + i + 1 - (next + i)) with 1 by lia. replace (zdrop (next + i) field) with (zdrop i (zdrop next field)) by (rewrite zdrop_zdrop by lia; f_equal; lia). rewrite Sp. rewrite zdrop_app_r by (rewrite zlen_ztake, zlen_zdrop; lia).
      replace (i - zlen (ztake i (zdrop next field))) with 0 by (rewrite zlen_ztake, zlen_zdrop; lia). reflexivity. }
    rewrite Bq. rewrite <- !app_assoc. reflexivity.
  - apply index_of_byte_none in E. rewrite double_none by exact E. f_equal. symmetry. apply Sl. lia.
Qed.
Lemma WriteQuoted_ok w q field i : w_quote w = Some q -> 0 <= i <= zlen field -> ~ In q (ztake i field) -> WriteQuoted w field i = Some ([q] ++ double q field ++ [q]).
Proof.
  intros Q Hi N. unfold WriteQuoted. rewrite Q. rewrite write_quoted_loop_ok by (unfold zlen in *; lia). cbn [option_map]. do 3 f_equal.
  unfold zslice. rewrite zdrop_nonpos by lia. rewrite Z.sub_0_r. f_equal. rewrite <- (double_none q (ztake i field)) by exact N. rewrite <- double_app, ztake_zdrop. reflexivity.
Qed.

(** ** Fields *)
Lemma quotes_needed_special w c : quotes_needed w c = true <-> special w c.
Proof. unfold quotes_needed, special. rewrite !orb_true_iff, !opt_eqb_some, !Z.eqb_eq. tauto. Qed.
Lemma first_needed_some w field i : first_needed w field = Some i -> 0 <= i < zlen field /\ (exists c, In c field /\ special w c) /\ forall c, In c (ztake i field) -> ~ special w c.
Proof.
  revert i. induction field as [|c field IH]; cbn [first_needed]; intros i E; [discriminate|]. rewrite zlen_cons. pose proof (zlen_nonneg field). destruct (quotes_needed w c) eqn:Q.
  - injection E as <-. split; [lia|]. split; [exists c; split; [left; reflexivity|apply quotes_needed_special; exact Q]|]. intros d [].
  - destruct (first_needed w field) as [j|]; [|discriminate]. assert (i = 1 + j) as -> by (cbn [option_map] in E; congruence). destruct (IH j eq_refl) as (H1 & (d & H2 & H3) & H4). split; [lia|]. split; [exists d; split; [right; exact H2|exact H3]|].
    rewrite ztake_cons by lia. replace (1 + j - 1) with j by lia. intros x [<-|X]; [|apply H4; exact X]. rewrite <- quotes_needed_special. congruence.
Qed.
Lemma first_needed_none w field : first_needed w field = None <-> forall c, In c field -> ~ special w c.
Proof.
  induction field as [|c field IH]; cbn [first_needed]; [split; [intros _ c []|reflexivity]|]. destruct (quotes_needed w c) eqn:Q.
  - split; [discriminate|]. intro H. exfalso. apply (H c); [left; reflexivity|]. apply quotes_needed_special. exact Q.
  - destruct (first_needed w field) as [j|]; cbn [option_map].
    + split; [discriminate|]. intro H. exfalso. assert (X : Some j = None) by (apply IH; intros d Hd; apply H; right; exact Hd). discriminate X.
    + split; [|reflexivity]. intros _ d [<-|Hd]; [rewrite <- quotes_needed_special; congruence|]. apply IH; [reflexivity|exact Hd].
Qed.
(** Two ways of writing a field *)
Definition raw_or_quoted (w : writer_options) (field bytes : list Z) : Prop :=
  (bytes = field /\ plain w field) \/ (exists q, w_quote w = Some q /\ bytes = [q] ++ double q field ++ [q]).
Lemma WriteField_ok w field : (w_quote w = None -> plain w field) -> exists bytes, WriteField w field = Some (Written bytes) /\ raw_or_quoted w field bytes /\ (field = [] -> bytes = []).
Proof.
  intro P. unfold WriteField. destruct (first_needed w field) as [i|] eqn:E.
  - apply first_needed_some in E. destruct E as (Hi & (c & Hc & Sc) & N). destruct (w_quote w) as [q|] eqn:Q.
    + rewrite (WriteQuoted_ok w q field i Q) by (try lia; intro X; apply (N q X); unfold special; tauto). exists ([q] ++ double q field ++ [q]). split; [reflexivity|]. split; [right; eauto|]. intros ->. destruct Hc.
    + exfalso. exact (P eq_refl c Hc Sc).
  - exists field. split; [reflexivity|]. split; [left; split; [reflexivity|exact (proj1 (first_needed_none w field) E)]|auto].
Qed.
Lemma WriteFirstField_ok w field : (w_quote w = None -> plain w field) -> exists bytes, WriteFirstField w field = Some (Written bytes) /\
  ((bytes = field /\ plain w field /\ (could_be_bom w field = true -> w_quote w = None)) \/
   (exists q, w_quote w = Some q /\ bytes = [q] ++ double q field ++ [q] /\ (field = [] -> could_be_bom w field = true))).
Proof.
  intro P. unfold WriteFirstField. destruct (could_be_bom w field) eqn:B; cbn [andb].
  - destruct (w_quote w) as [q|] eqn:Q; cbn [opt_eqb negb].
    + rewrite (WriteQuoted_ok w q field 0 Q) by (try (pose proof (zlen_nonneg field); lia); rewrite ztake_nonpos by lia; intros []). exists ([q] ++ double q field ++ [q]).
      split; [reflexivity|]. right. eauto.
    + destruct (WriteField_ok w field) as (bytes & E & R & _); [auto|]. exists bytes. split; [exact E|]. left. destruct R as [(-> & R)|(q & X & _)]; [auto|congruence].
  - destruct (WriteField_ok w field P) as (bytes & E & R & Em). exists bytes. split; [exact E|]. destruct R as [(-> & R)|(q & X & R)]; [left; split; [reflexivity|split; [exact R|discriminate]]|]. right. exists q. split; [exact X|]. split; [exact R|].
    intro Z0. specialize (Em Z0). subst. discriminate Em.
Qed.
Lemma WriteField_fails w field : w_quote w = None -> ~ plain w field -> WriteField w field = Some WriteFailed.
Proof.
  intros Q P. unfold WriteField. destruct (first_needed w field) as [i|] eqn:E; [rewrite Q; reflexivity|]. exfalso. apply P. exact (proj1 (first_needed_none w field) E).
Qed.

(** ** Records *)
Lemma matching_ok w o : matching w o -> writer_options_ok w = true -> reader_options_ok o = true.
Proof. intros (A & B & C & E) H. unfold reader_options_ok. rewrite A, B, C, E, andb_true_r. exact H. Qed.
Section Match.
Context (w : writer_options) (o : reader_options) (Match : matching w o) (Distinct : distinct o).
Lemma plain_unquoted field : plain w field -> unquoted o field field.
Proof.
  destruct Match as (M1 & M2 & M3 & M4). induction field as [|c field IH]; intro P; constructor.
  - pose proof (P c (or_introl eq_refl)) as N. unfold special in N. unfold ordinary. rewrite M1, M2, M4. repeat split; try tauto. discriminate.
  - apply IH. intros d Hd. apply P. right. exact Hd.
Qed.
Lemma double_quoted q field : w_quote w = Some q -> quoted_body o (double q field) field.
Proof.
  destruct Match as (M1 & M2 & M3 & M4). intro Q. unfold double. induction field as [|c field IH]; cbn [flat_map]; [constructor|]. destruct (c =? q) eqn:E.
  - replace c with q by lia. cbn [app]. apply quoted_doubled; [congruence|exact IH].
  - cbn [app]. apply quoted_char; [rewrite M2, Q; intro X; injection X; lia|congruence|exact IH].
Qed.
Lemma field_written field bytes : raw_or_quoted w field bytes -> field_text o bytes field.
Proof.
  intros [(-> & P)|(q & Q & ->)]; [apply field_unquoted, plain_unquoted; exact P|]. apply field_quoted; [destruct Match as (_ & M & _); congruence|apply double_quoted; exact Q].
Qed.
Lemma field_no_comment field bytes more : raw_or_quoted w field bytes -> no_comment o more -> no_comment o (bytes ++ more).
Proof.
  destruct Match as (M1 & M2 & M3 & M4). intros [(-> & P)|(q & Q & ->)] Nm c t Cc X.
  - destruct field as [|d field]; [eapply Nm; [exact Cc|exact X]|]. injection X as <- _. apply (P d (or_introl eq_refl)). unfold special. rewrite <- M3. tauto.
  - injection X as <- _. destruct Distinct as [_ _ (_ & _ & _ & D) _]. apply (D q); [congruence|exact Cc].
Qed.
Lemma sep_no_comment more : no_comment o (c_sep o :: more).
Proof. intros c t Cc X. destruct Distinct as [_ (_ & _ & D) _ _]. congruence. Qed.
Notation writable := (CsvSpec.writable w).
Lemma write_fields_ok record : writable record -> exists bytes, write_fields w record = Some (Written bytes) /\
  ((record = [] /\ bytes = []) \/ exists more, bytes = c_sep o :: more /\ fields_text o more record).
Proof.
  destruct Match as (M1 & _). induction record as [|field record IH]; intro P; cbn [write_fields]; [exists []; auto|].
  assert (P1 : w_quote w = None -> plain w field) by (intro Q; specialize (P Q); inversion P; assumption).
  assert (P2 : writable record) by (intro Q; specialize (P Q); inversion P; assumption).
  destruct (WriteField_ok w field P1) as (b1 & -> & R & _). destruct (IH P2) as (b2 & -> & H). cbn [written_app]. exists (w_sep w :: b1 ++ b2). split; [reflexivity|]. right. exists (b1 ++ b2). rewrite M1. split; [reflexivity|].
  destruct H as [(-> & ->)|(more & -> & F)]; [rewrite app_nil_r; constructor; apply field_written; exact R|]. apply (fields_more o b1 field more record); [apply field_written; exact R|exact F].
Qed.
Definition nl_bytes : list Z := WriteLine [] (w_newline w).
Lemma nl_break : line_break nl_bytes.
Proof. unfold nl_bytes, line_break. destruct (w_newline w); [left|right]; reflexivity. Qed.
Definition not_bom (bytes : list Z) : Prop := forall rest, bytes <> kUtf8Bom ++ rest.
(** [text] is not a part of UTF-8 BOM, and what follows is not its continuation *)
Lemma raw_not_bom field more : could_be_bom w field = false -> (forall x rest, more = x :: rest -> x = w_sep w \/ x = LF \/ x = CR \/ (field = [] /\ x <> 0xef)) -> not_bom (field ++ more).
Proof.
  unfold not_bom, kUtf8Bom. intros B M rest X. destruct field as [|c0 field]; cbn [could_be_bom app] in *.
  - destruct (M _ _ X) as [Y|[Y|[Y|(_ & Y)]]]; [lia|discriminate Y..|congruence].
  - injection X as -> X. destruct field as [|c1 field]; cbn [app] in X.
    + destruct (M _ _ X) as [Y|[Y|[Y|(Y & _)]]]; [|discriminate Y..]. rewrite <- Y in B. discriminate B.
    + injection X as -> X. destruct field as [|c2 field]; cbn [app] in X.
      * destruct (M _ _ X) as [Y|[Y|[Y|(Y & _)]]]; [|discriminate Y..]. rewrite <- Y in B. discriminate B.
      * injection X as -> X. discriminate B.
Qed.
Lemma WriteRecord_ok standalone record : record <> [] -> writable record -> exists text, WriteRecord w standalone record = Some (Written (text ++ if standalone then [] else nl_bytes)) /\
  fields_text o text record /\ no_comment o text /\ (w_quote w <> None \/ record <> [[]] -> text <> []) /\
  ((forall q, w_quote w = Some q -> q <> 0xef) -> (w_quote w = None -> forall field more, record = field :: more -> could_be_bom w field = false) ->
   forall rest, not_bom (text ++ (if standalone then [] else nl_bytes ++ rest))).
Proof.
  intros Ne P. destruct record as [|field record]; [congruence|]. clear Ne. unfold WriteRecord.
  assert (P1 : w_quote w = None -> plain w field) by (intro Q; specialize (P Q); inversion P; assumption).
  assert (P2 : writable record) by (intro Q; specialize (P Q); inversion P; assumption).
  destruct (WriteFirstField_ok w field P1) as (b1 & -> & R). cbn [written_app].
  assert (R' : raw_or_quoted w field b1) by (destruct R as [(R1 & R2 & _)|(q & R1 & R2 & _)]; [left; auto|right; eauto]).
  assert (Quoted : forall q b2, w_quote w = Some q -> b1 = [q] ++ double q field ++ [q] -> (forall q, w_quote w = Some q -> q <> 0xef) -> forall rest, not_bom ((b1 ++ b2) ++ rest)).
  { intros q b2 Q -> Nq rest rest' X. cbn [app] in X. injection X as X _. exact (Nq q Q X). }
  destruct record as [|f2 record].
  - destruct ((zlen field =? 0) && negb (w_sep w =? 0xef)) eqn:Em.
    + assert (field = []) by (destruct field; [reflexivity|rewrite zlen_cons in Em; pose proof (zlen_nonneg field); lia]). subst field.
      destruct R as [(-> & _)|(q & Q & -> & Bo)]; [|specialize (Bo eq_refl); cbn in Bo; lia]. cbn [written_app app].
      exists (WriteQuotes w). split; [destruct standalone; rewrite ?app_nil_r; reflexivity|]. unfold WriteQuotes. destruct (w_quote w) as [q|] eqn:Q.
      * split; [constructor; change [q; q] with ([q] ++ [] ++ [q]); apply field_quoted; [destruct Match as (_ & M & _); congruence|constructor]|].
        split; [intros c t Cc X; injection X as <- _; destruct Distinct as [_ _ (_ & _ & _ & D) _]; apply (D q); [destruct Match as (_ & M & _); congruence|exact Cc]|].
        split; [discriminate|]. intros Nq _ rest rest' X. cbn [app] in X. injection X as X _. exact (Nq q eq_refl X).
      * split; [constructor; apply field_unquoted; constructor|]. split; [intros c t _; discriminate|]. split; [intros [X|X]; congruence|]. intros _ Nb rest. destruct standalone; [intros rest'; discriminate|].
        apply (raw_not_bom []); [eapply Nb; reflexivity|]. intros x rest' X. unfold nl_bytes in X. destruct (w_newline w); injection X as <- _; auto.
    + cbn [written_app]. exists b1. rewrite app_nil_r. split; [destruct standalone; rewrite ?app_nil_r; reflexivity|]. split; [constructor; apply field_written; exact R'|].
      split; [rewrite <- (app_nil_r b1); apply (field_no_comment field); [exact R'|intros c t _; discriminate]|]. split.
      * intros Nn Eb. subst b1. destruct R as [(R1 & _ & R2)|(q & _ & R1 & _)]; [|discriminate R1]. subst field. cbn in Em, R2. destruct Nn as [Nn|Nn]; [|congruence]. apply Nn, R2. lia.
      * intros Nq Nb rest. destruct R as [(-> & _ & R)|(q & Q & R1 & _)]; [|rewrite <- (app_nil_r b1); eapply Quoted; eassumption].
        assert (B : could_be_bom w field = false) by (destruct (could_be_bom w field) eqn:B; [|reflexivity]; specialize (Nb (R eq_refl) field [] eq_refl); congruence).
        apply raw_not_bom; [exact B|]. intros x rest' X. destruct standalone; [discriminate X|]. unfold nl_bytes in X. destruct (w_newline w); injection X as <- _; auto.
  - destruct (write_fields_ok (f2 :: record) P2) as (b2 & -> & [(X & _)|(more & -> & F)]); [discriminate X|]. cbn [written_app].
    exists (b1 ++ c_sep o :: more). split; [destruct standalone; rewrite ?app_nil_r; reflexivity|]. split; [apply (fields_more o b1 field more (f2 :: record)); [apply field_written; exact R'|exact F]|].
    split; [apply (field_no_comment field); [exact R'|apply sep_no_comment]|]. split; [intros _ X; destruct b1; discriminate X|].
    intros Nq Nb rest. destruct R as [(-> & _ & R)|(q & Q & R1 & _)]; [|eapply Quoted; eassumption].
    assert (B : could_be_bom w field = false) by (destruct (could_be_bom w field) eqn:B; [|reflexivity]; specialize (Nb (R eq_refl) field _ eq_refl); congruence).
    rewrite <- app_assoc. apply raw_not_bom; [exact B|]. intros x rest' X. cbn [app] in X. injection X as <- _. destruct Match as (M & _). auto.
Qed.
(** Failing *)
Lemma written_app_failed_l b : written_app (Some WriteFailed) b = Some WriteFailed.
Proof. destruct b as [[]|]; reflexivity. Qed.
Lemma write_fields_total record : w_quote w = None -> exists r, write_fields w record = Some r /\ (r = WriteFailed <-> ~ Forall (plain w) record).
Proof.
  intro Q. induction record as [|field record IH]; cbn [write_fields]; [exists (Written []); split; [reflexivity|]; split; [discriminate|intro X; exfalso; apply X; constructor]|].
  destruct IH as (r & -> & Hr). assert (Dec : plain w field \/ ~ plain w field).
  { destruct (first_needed w field) as [i|] eqn:E; [right|left; exact (proj1 (first_needed_none w field) E)]. apply first_needed_some in E. destruct E as (_ & (c & H1 & H2) & _). intro X. exact (X c H1 H2). }
  destruct Dec as [Pf|Pf].
  - destruct (WriteField_ok w field) as (b & -> & _); [auto|]. destruct r as [b2|]; cbn [written_app].
    + eexists. split; [reflexivity|]. split; [discriminate|]. intro X. exfalso. destruct Hr as [_ Hr]. assert (Y : Written b2 = WriteFailed) by (apply Hr; intro F; apply X; constructor; assumption). discriminate Y.
    + eexists. split; [reflexivity|]. split; [|reflexivity]. intros _ F. inversion F. apply (proj1 Hr eq_refl). assumption.
  - rewrite (WriteField_fails w field Q Pf), written_app_failed_l. cbn [written_app]. eexists. split; [reflexivity|]. split; [|reflexivity]. intros _ F. inversion F. auto.
Qed.
Lemma WriteRecord_total standalone record : w_quote w = None -> exists r, WriteRecord w standalone record = Some r /\ (r = WriteFailed <-> ~ Forall (plain w) record).
Proof.
  intro Q. unfold WriteRecord. destruct record as [|field record].
  - eexists. split; [reflexivity|]. split; [discriminate|]. intro X. exfalso. apply X. constructor.
  - assert (E1 : WriteFirstField w field = WriteField w field) by (unfold WriteFirstField; rewrite Q; cbn [opt_eqb negb]; rewrite andb_false_r; reflexivity). rewrite E1.
    assert (Dec : plain w field \/ ~ plain w field).
    { destruct (first_needed w field) as [i|] eqn:E; [right|left; exact (proj1 (first_needed_none w field) E)]. apply first_needed_some in E. destruct E as (_ & (c & H1 & H2) & _). intro X. exact (X c H1 H2). }
    destruct Dec as [Pf|Pf].
    + destruct (WriteField_ok w field) as (b & -> & _); [auto|].
      assert (X : exists r, (match record with [] => if (zlen field =? 0) && negb (w_sep w =? 0xef) then Some (Written (WriteQuotes w)) else Some (Written []) | _ => write_fields w record end) = Some r /\ (r = WriteFailed <-> ~ Forall (plain w) record)).
      { destruct record as [|f2 record]; [|apply write_fields_total; exact Q]. destruct (_ && _); (eexists; split; [reflexivity|]; split; [discriminate|intro X; exfalso; apply X; constructor]). }
      destruct X as (r & -> & Hr). destruct r as [b2|]; cbn [written_app].
      * eexists. split; [reflexivity|]. split; [discriminate|]. intro X. exfalso. assert (Y : Written b2 = WriteFailed) by (apply Hr; intro F; apply X; constructor; assumption). discriminate Y.
      * eexists. split; [reflexivity|]. split; [|reflexivity]. intros _ F. inversion F. apply (proj1 Hr eq_refl). assumption.
    + rewrite (WriteField_fails w field Q Pf), written_app_failed_l. cbn [written_app]. eexists. split; [reflexivity|]. split; [|reflexivity]. intros _ F. inversion F. auto.
Qed.
End Match.
