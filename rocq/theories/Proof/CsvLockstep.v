(** CsvReader does what an unbuffered reader does, continued: ReadFields() and ReadRecord().  Model/Csv.v *)
From Verif Require Import Base.Bytes Model.BufferedSource Model.Lines Model.Csv Spec.CsvSpec Proof.SourceProof Proof.CsvPure.

Definition recoverable (e : csv_error) : bool := match e with EUnexpectedNewline | ESource | EOptions => false | _ => true end.
Lemma suffix_refl a : suffix a a. Proof. exists []. reflexivity. Qed.
Lemma suffix_trans a b c : suffix a b -> suffix b c -> suffix a c.
Proof. intros (x & ->) (y & ->). exists (y ++ x). apply app_assoc. Qed.
Lemma suffix_cons c a b : suffix (c :: a) b -> suffix a b.
Proof. intros (x & ->). exists (x ++ [c]). rewrite <- app_assoc. reflexivity. Qed.
Lemma suffix_nil b : suffix [] b. Proof. exists b. symmetry. apply app_nil_r. Qed.
Lemma suffix_length a b : suffix a b -> (length a <= length b)%nat.
Proof. intros (x & ->). rewrite app_length. lia. Qed.
Lemma suffix_after_lf t : suffix (after_lf t) t.
Proof. induction t as [|c t IH]; cbn; [apply suffix_refl|]. destruct (c =? LF); [exists [c]; reflexivity|]. destruct IH as (x & E). exists (c :: x). cbn. congruence. Qed.

Lemma class_quote o c : reader_options_ok o = true -> (class_of o c = kQuote <-> c_quote o = Some c).
Proof.
  unfold reader_options_ok, class_of. intro H. destruct (c_escape o) as [e|]; cbn [opt_eqb] in *.
  - destruct (c_quote o) as [q|]; cbn [opt_eqb] in *.
    + destruct (c =? e) eqn:E; [split; [discriminate|]; intro X; injection X as ->; exfalso; lia|].
      destruct (c =? q) eqn:Q; [split; [|reflexivity]; intros _; f_equal; lia|]. split; [|intro X; injection X as ->; exfalso; lia].
      repeat match goal with |- context [if ?b then _ else _] => destruct b end; discriminate.
    + split; [|discriminate]. repeat match goal with |- context [if ?b then _ else _] => destruct b end; discriminate.
  - destruct (c_quote o) as [q|]; cbn [opt_eqb] in *.
    + destruct (c =? q) eqn:Q; [split; [|reflexivity]; intros _; f_equal; lia|]. split; [|intro X; injection X as ->; exfalso; lia].
      repeat match goal with |- context [if ?b then _ else _] => destruct b end; discriminate.
    + split; [|discriminate]. repeat match goal with |- context [if ?b then _ else _] => destruct b end; discriminate.
Qed.
Lemma p_quoted_not_quote o fails n : reader_options_ok o = true -> forall text field line field' c t line', (length text <= n)%nat ->
  p_quoted o fails text field line = QDone field' (c :: t) line' -> class_of o c <> kQuote.
Proof.
  intro Ok. induction n as [|n IH]; intros text field line field' c t line' L; destruct text as [|c0 t0]; cbn [p_quoted length] in *; try lia.
  - unfold at_end. destruct (too_long o field), fails; discriminate.
  - unfold at_end. destruct (too_long o field), fails; discriminate.
  - assert (H : forall t' f l, (length t' <= length t0)%nat -> p_quoted o fails t' f l = QDone field' (c :: t) line' -> class_of o c <> kQuote).
    { intros t' f l Lt' E. eapply (IH t'); [lia|exact E]. }
    destruct (class_of o c0); try (apply H; lia); (destruct (too_long o field); [discriminate|]); destruct t0 as [|c2 t2]; unfold at_end.
    + destruct fails; discriminate.
    + destruct (c2 =? quote_char o) eqn:Q; [apply H; cbn; lia|]. intro E. injection E as _ -> _ _. intro X. apply class_quote in X; [|exact Ok].
      unfold quote_char in Q. rewrite X in Q. lia.
    + destruct fails; discriminate.
    + apply H; cbn; lia.
Qed.

(** ** A reader which has not failed *)
Definition st (s : source) (standalone : bool) (index last line : Z) : csv_reader :=
  {| r_src := s; r_status := None; r_recoverable := false; r_standalone := standalone; r_index := index; r_last_line := last; r_line := line |}.
Definition failed (e : csv_error) (base : list Z) (fails standalone : bool) (index : Z) (r : csv_reader) : Prop :=
  r_status r = Some e /\ r_recoverable r = recoverable e /\ good (r_src r) /\ s_fails (r_src r) = fails /\ suffix (s_rest (r_src r)) base /\
  r_standalone r = standalone /\ r_index r = index.
Lemma fail_failed e base s standalone index last line : good s -> suffix (s_rest s) base ->
  failed e base (s_fails s) standalone index (fail (recoverable e) e (st s standalone index last line)).
Proof. intros G S1. repeat split; auto; apply G. Qed.

Lemma bool_cases (b : bool) : b = true \/ b = false. Proof. destruct b; auto. Qed.
Lemma if_true b A (x y : A) : b = true -> (if b then x else y) = x. Proof. intros ->. reflexivity. Qed.
Lemma if_false b A (x y : A) : b = false -> (if b then x else y) = y. Proof. intros ->. reflexivity. Qed.
Lemma at_end_true b A (f : csv_error -> A) a : b = true -> at_end b f a = f ESource. Proof. intros ->. reflexivity. Qed.
Lemma at_end_false b A (f : csv_error -> A) a : b = false -> at_end b f a = a. Proof. intros ->. reflexivity. Qed.
Section Lockstep.
Context (o : reader_options) (base : list Z) (fails standalone : bool) (index : Z).
Context (Options : reader_options_ok o = true) (Max : 0 <= c_max_length o).
Notation mk s last line := (st s standalone index last line).
Notation bad e r := (failed e base fails standalone index r).

Definition quoted_matches (last : Z) (res : option (bool * list Z * csv_reader)) (pure : pquoted) : Prop :=
  match pure with
  | QDone field rest line => exists s, res = Some (true, field, mk s last line) /\ good s /\ s_rest s = rest /\ s_fails s = fails /\ suffix rest base
  | QFail e => exists field r, res = Some (false, field, r) /\ bad e r
  end.
Lemma quoted_fail e s last line field : good s -> s_fails s = fails -> suffix (s_rest s) base ->
  quoted_matches last (Some (false, field, fail (recoverable e) e (mk s last line))) (QFail e).
Proof. intros G F Sf. eexists. eexists. split; [reflexivity|]. rewrite <- F. apply fail_failed; assumption. Qed.
Lemma at_pos_rest s field ptr text fp : at_pos s field ptr text fp -> suffix text (s_rest s).
Proof. intros (_ & -> & _). exists (ztake ptr (s_rest s)). symmetry. apply ztake_zdrop. Qed.
Lemma read_quoted_loop_ok fuel : forall s last line field ptr text fp, good s -> s_fails s = fails -> suffix (s_rest s) base ->
  at_pos s field ptr text fp -> (length text < fuel)%nat ->
  quoted_matches last (read_quoted_loop fuel o (mk s last line) field ptr) (p_quoted o fails text fp line).
Proof.
  induction fuel as [|fuel IH]; intros s last line field ptr text fp G F Sf P L; [lia|]. cbn [read_quoted_loop].
  destruct (refill_ok o (mk s last line) field ptr text fp G P) as [(-> & TL)|(s1 & G1 & F1 & [(-> & TL & R1 & ->)|(c & t & field1 & ptr1 & -> & -> & P1 & Lt1 & bef & Bef)])].
  - rewrite (p_quoted_long o fails (length text)) by (auto; lia). apply (quoted_fail EMaxLength); assumption.
  - cbn [p_quoted]. rewrite TL. cbn [r_src st] in F1. rewrite F1, F. change (with_src (mk s last line) s1) with (mk s1 last line). destruct (bool_cases fails) as [Fa|Fa]; [rewrite at_end_true by exact Fa|rewrite at_end_false by exact Fa]; rewrite Fa.
    + apply (quoted_fail ESource); [exact G1|congruence|rewrite R1; apply suffix_nil].
    + apply (quoted_fail EMissingQuote); [exact G1|congruence|rewrite R1; apply suffix_nil].
  - cbn [r_src] in *. assert (F1' : s_fails s1 = fails) by (cbn in F1; congruence). clear F1.
    assert (S1 : suffix (s_rest s1) base). { eapply suffix_trans; [exists bef; exact Bef|exact Sf]. }
    change (with_src (mk s last line) s1) with (mk s1 last line). cbn [r_src st]. destruct (at_pos_next _ _ _ _ _ _ G1 P1 Lt1) as (-> & P2).
    cbn [p_quoted length] in *.
    destruct (class_of o c) eqn:Cl.
    1, 3, 4, 5: apply IH; auto; lia.
    + change (add_line (mk s1 last line)) with (mk s1 last (line + 1)). apply IH; auto; lia.
    + destruct (flush_ok o (mk s1 last line) field1 ptr1 c t fp G1 P1 Lt1) as [(TL & ->)|(TL & s2 & G2 & R2 & F2 & ->)]; rewrite TL.
      * apply (quoted_fail EMaxLength); assumption.
      * cbn [r_src st] in F2. change (with_src (mk s1 last line) s2) with (mk s2 last line). assert (F2' : s_fails s2 = fails) by congruence.
        assert (S2 : suffix (s_rest s2) base). { rewrite R2. eapply suffix_trans; [|exact S1]. eapply suffix_cons. eapply at_pos_rest. exact P1. }
        destruct (peek_ok (mk s2 last line) G2) as (s3 & G3 & R3 & F3 & Q). cbn [r_src st] in R3, F3, Q. rewrite R2 in *.
        destruct t as [|c2 t2].
        -- rewrite Q. change (with_src (mk s2 last line) s3) with (mk s3 last line). rewrite F3, F2'. destruct (bool_cases fails) as [Fa|Fa]; [rewrite at_end_true by exact Fa|rewrite at_end_false by exact Fa]; rewrite Fa.
           ++ apply (quoted_fail ESource); [exact G3|congruence|rewrite R3; apply suffix_nil].
           ++ exists s3. split; [reflexivity|]. split; [exact G3|]. split; [exact R3|]. split; [congruence|apply suffix_nil].
        -- destruct Q as [-> Av]. change (with_src (mk s2 last line) s3) with (mk s3 last line). destruct (c2 =? quote_char o) eqn:Qc.
           ++ assert (P3 : at_pos s3 fp 0 (c2 :: t2) fp) by (apply at_pos_0; [apply G3|exact R3]). apply at_pos_next in P3; [|exact G3|lia]. destruct P3 as [_ P3]. apply IH; auto; [congruence|rewrite R3; exact S2|cbn in L; lia].
           ++ exists s3. split; [reflexivity|]. split; [exact G3|]. split; [exact R3|]. split; [congruence|exact S2].
    + destruct (flush_ok o (mk s1 last line) field1 ptr1 c t fp G1 P1 Lt1) as [(TL & ->)|(TL & s2 & G2 & R2 & F2 & ->)]; rewrite TL.
      * apply (quoted_fail EMaxLength); assumption.
      * cbn [r_src st] in F2. change (with_src (mk s1 last line) s2) with (mk s2 last line). assert (F2' : s_fails s2 = fails) by congruence.
        assert (S2 : suffix (s_rest s2) base). { rewrite R2. eapply suffix_trans; [|exact S1]. eapply suffix_cons. eapply at_pos_rest. exact P1. }
        destruct (peek_ok (mk s2 last line) G2) as (s3 & G3 & R3 & F3 & Q). cbn [r_src st] in R3, F3, Q. rewrite R2 in *.
        destruct t as [|c2 t2].
        -- rewrite Q. change (with_src (mk s2 last line) s3) with (mk s3 last line). rewrite F3, F2'. destruct (bool_cases fails) as [Fa|Fa]; [rewrite at_end_true by exact Fa|rewrite at_end_false by exact Fa]; rewrite Fa.
           ++ apply (quoted_fail ESource); [exact G3|congruence|rewrite R3; apply suffix_nil].
           ++ apply (quoted_fail EMissingEscaped); [exact G3|congruence|rewrite R3; apply suffix_nil].
        -- destruct Q as [-> Av]. change (with_src (mk s2 last line) s3) with (mk s3 last line).
           assert (P3 : at_pos s3 fp 0 (c2 :: t2) fp) by (apply at_pos_0; [apply G3|exact R3]). apply at_pos_next in P3; [|exact G3|lia]. destruct P3 as [_ P3]. apply IH; auto; [congruence|rewrite R3; exact S2|cbn in L; lia].
Qed.

(** ** ReadFields() *)
(** A step: the pure reader has [text] and [fp] where the buffered one has [s], [field], [ptr]; the vector of fields may have old elements after them. *)
Definition step_matches (b : option fields_step) (p : pstep) : Prop :=
  match p with
  | PScan text done fp line last => exists field stale ptr s, b = Some (Scan done field stale ptr (mk s last line)) /\ good s /\ s_fails s = fails /\ suffix (s_rest s) base /\ at_pos s field ptr text fp
  | PDone (POk fields rest line last) => exists vector i s, b = Some (Done true vector i (mk s last line)) /\ ztake (i + 1) vector = fields /\ good s /\ s_fails s = fails /\ s_rest s = rest /\ suffix rest base
  | PDone (PEnd line) => exists vector i s, b = Some (Done false vector i (mk s line line)) /\ good s /\ s_fails s = fails /\ s_rest s = []
  | PDone (PFail e) => (exists vector i r, b = Some (Done false vector i r) /\ bad e r)
  end.
(** A field which is too long may be discovered later by the pure reader. *)
Definition long_step (b : option fields_step) (p : pstep) : Prop :=
  (exists text done fp line last, p = PScan text done fp line last /\ fp <> [] /\ too_long o fp = true) /\
  exists vector i r, b = Some (Done false vector i r) /\ bad EMaxLength r.
Lemma vector_taken done (field : list Z) stale : ztake (zlen done + 1) (done ++ field :: stale) = done ++ [field].
Proof. rewrite ztake_app_r by lia. replace (zlen done + 1 - zlen done) with 1 by lia. reflexivity. Qed.
Lemma step_fail e s last line vector i : good s -> s_fails s = fails -> suffix (s_rest s) base ->
  step_matches (Some (Done false vector i (fail (recoverable e) e (mk s last line)))) (PDone (PFail e)).
Proof. intros G F Sf. cbn. eexists. eexists. eexists. split; [reflexivity|]. rewrite <- F. apply fail_failed; assumption. Qed.
Lemma next_field_ok s last line done stale : good s -> s_fails s = fails -> suffix (s_rest s) base ->
  step_matches (Some (next_field o (mk s last line) done stale)) (p_next_field o (s_rest s) done line last).
Proof.
  intros G F Sf. unfold next_field, p_next_field. destruct (zlen done =? c_max_fields o).
  - apply (step_fail EMaxFields); assumption.
  - cbn. exists [], (tl stale), 0, s. split; [reflexivity|]. split; [exact G|]. split; [exact F|]. split; [exact Sf|]. apply at_pos_0; [apply G|reflexivity].
Qed.
Lemma next_record_ok s last line fields : good s -> s_fails s = fails -> suffix (s_rest s) base -> (standalone = true -> index = 0) ->
  step_matches (next_record o (mk s last line) fields) (p_next_record o fails standalone (s_rest s) line).
Proof.
  intros G F Sf Ix. unfold next_record, p_next_record. change (start_line (mk s last line)) with (mk s line line). cbn [r_standalone r_index st].
  destruct (bool_cases standalone) as [Sa|Sa]; [rewrite !(if_true standalone) by exact Sa|rewrite !(if_false standalone) by exact Sa].
  - replace (0 <? index) with false by (rewrite Ix; auto). apply next_field_ok; assumption.
  - destruct (peek_ok (mk s line line) G) as (s3 & G3 & R3 & F3 & Q). cbn [r_src st] in R3, F3, Q. destruct (s_rest s) as [|c t] eqn:Rs.
    + rewrite Q, F3, F. change (with_src (mk s line line) s3) with (mk s3 line line). destruct (bool_cases fails) as [Fa|Fa]; [rewrite at_end_true by exact Fa|rewrite at_end_false by exact Fa]; rewrite Fa.
      * eapply (step_fail ESource); [exact G3|congruence|rewrite R3; apply suffix_nil].
      * cbn. eexists. eexists. exists s3. split; [reflexivity|]. split; [exact G3|]. split; [congruence|exact R3].
    + destruct Q as [-> Av]. rewrite <- R3. change (with_src (mk s line line) s3) with (mk s3 line line).
      apply next_field_ok; [exact G3|congruence|rewrite R3; exact Sf].
Qed.
Lemma SkipLine_st s last line : good s -> exists s', SkipLine (mk s last line) = Some (mk s' last (line + 1)) /\ good s' /\ s_rest s' = after_lf (s_rest s) /\ s_fails s' = s_fails s.
Proof. intro G. destruct (SkipLine_ok (mk s last line) G) as (s' & E & H). exists s'. split; [exact E|exact H]. Qed.
Lemma peek_st s last line : good s -> s_fails s = fails -> exists s', good s' /\ s_rest s' = s_rest s /\ s_fails s' = fails /\
  match s_rest s with
  | [] => peek (mk s last line) = Some (if fails then (false, None, fail false ESource (mk s' last line)) else (true, None, mk s' last line))
  | c :: _ => peek (mk s last line) = Some (true, Some c, mk s' last line) /\ 1 <= s_avail s'
  end.
Proof.
  intros G F. destruct (peek_ok (mk s last line) G) as (s3 & G3 & R3 & F3 & Q). cbn [r_src st] in R3, F3, Q. exists s3. split; [exact G3|]. split; [exact R3|]. split; [congruence|].
  destruct (s_rest s); [rewrite F3, F in Q|]; exact Q.
Qed.
Lemma after_cr_ok s last line : good s -> s_fails s = fails -> suffix (s_rest s) base ->
  match s_rest s with
  | [] => exists s', after_cr (mk s last line) = Some (inl (if fails then fail false ESource (mk s' last line) else fail true EMissingLf (mk s' last line))) /\ good s' /\ s_fails s' = fails /\ s_rest s' = []
  | c :: t => exists s', good s' /\ s_fails s' = fails /\
      if c =? LF then after_cr (mk s last line) = Some (inr (mk s' last line)) /\ s_rest s' = t
      else after_cr (mk s last line) = Some (inl (fail true EMissingLf (mk s' last line))) /\ s_rest s' = s_rest s
  end.
Proof.
  intros G F Sf. unfold after_cr. destruct (peek_st s last line G F) as (s1 & G1 & R1 & F1 & Q). destruct (s_rest s) as [|c t] eqn:Rs.
  - exists s1. rewrite Q. destruct (bool_cases fails) as [Fa|Fa]; rewrite Fa; (split; [reflexivity|split; [exact G1|split; [congruence|exact R1]]]).
  - destruct Q as [-> Av]. destruct (c =? LF) eqn:E; cbn [negb].
    + destruct (move_good 1 s1 G1 ltac:(lia)) as (s2 & E2 & G2 & R2 & F2). exists s2. split; [exact G2|]. split; [congruence|]. cbn [r_src st]. rewrite E2. split; [reflexivity|]. rewrite R2, R1. reflexivity.
    + exists s1. split; [exact G1|]. split; [exact F1|]. split; [reflexivity|exact R1].
Qed.
Lemma done_ok s last line done field stale : good s -> s_fails s = fails -> suffix (s_rest s) base ->
  step_matches (if standalone then Some (Done false (done ++ field :: stale) (zlen done) (fail false EUnexpectedNewline (mk s last (line + 1))))
                else Some (Done true (done ++ field :: stale) (zlen done) (mk s last (line + 1)))) (p_done standalone (s_rest s) done field line last).
Proof.
  intros G F Sf. unfold p_done. destruct (bool_cases standalone) as [Sa|Sa]; [rewrite !(if_true standalone) by exact Sa|rewrite !(if_false standalone) by exact Sa].
  - apply (step_fail EUnexpectedNewline); assumption.
  - exists (done ++ field :: stale), (zlen done), s. split; [reflexivity|]. split; [apply vector_taken|]. auto.
Qed.
Lemma newline_ok s last line done field stale : good s -> s_fails s = fails -> suffix (s_rest s) base -> (standalone = true -> index = 0) ->
  step_matches (if c_skip_empty o && (zlen done =? 0) && (zlen field =? 0) then next_record o (mk s last (line + 1)) (done ++ field :: stale)
                else if standalone then Some (Done false (done ++ field :: stale) (zlen done) (fail false EUnexpectedNewline (mk s last (line + 1))))
                else Some (Done true (done ++ field :: stale) (zlen done) (mk s last (line + 1)))) (p_newline o fails standalone (s_rest s) done field line last).
Proof.
  intros G F Sf Ix. unfold p_newline. destruct (c_skip_empty o && (zlen done =? 0) && (zlen field =? 0)); [apply next_record_ok|apply done_ok]; assumption.
Qed.
Lemma scan_step_ok s last line done field stale ptr text fp : good s -> s_fails s = fails -> suffix (s_rest s) base -> (standalone = true -> index = 0) ->
  at_pos s field ptr text fp ->
  (step_matches (scan_step o done field stale ptr (mk s last line)) (p_step o fails standalone text done fp line last)) \/
  (fp <> [] /\ too_long o fp = true /\ exists vector i r, scan_step o done field stale ptr (mk s last line) = Some (Done false vector i r) /\ bad EMaxLength r).
Proof.
  intros G F Sf Ix P. unfold scan_step.
  destruct (refill_ok o (mk s last line) field ptr text fp G P) as [(-> & TL)|(s1 & G1 & F1 & [(-> & TL & R1 & ->)|(c & t & field1 & ptr1 & -> & -> & P1 & Lt1 & bef & Bef)])].
  - destruct text as [|c t].
    + left. unfold p_step. rewrite TL. apply (step_fail EMaxLength); assumption.
    + destruct fp as [|x fp]; [|right; split; [discriminate|]; split; [exact TL|]; destruct (step_fail EMaxLength s last line (done ++ field :: stale) (zlen done) G F Sf) as (v & i & r & E & B); exists v, i, r; auto].
      exfalso. unfold too_long in TL. change (zlen (@nil Z)) with 0 in TL. lia.
  - left. cbn [r_src st] in F1. cbn [p_step]. rewrite TL. change (with_src (mk s last line) s1) with (mk s1 last line). rewrite F1, F.
    destruct (bool_cases fails) as [Fa|Fa]; [rewrite at_end_true by exact Fa|rewrite at_end_false by exact Fa]; rewrite Fa.
    + apply (step_fail ESource); [exact G1|congruence|rewrite R1; apply suffix_nil].
    + change (add_line (mk s1 last line)) with (mk s1 last (line + 1)). eexists. eexists. exists s1. split; [reflexivity|]. split; [apply vector_taken|]. split; [exact G1|]. split; [congruence|]. split; [exact R1|apply suffix_nil].
  - left. cbn [r_src st] in *. assert (F1' : s_fails s1 = fails) by congruence. clear F1.
    assert (S1 : suffix (s_rest s1) base). { eapply suffix_trans; [exists bef; exact Bef|exact Sf]. }
    change (with_src (mk s last line) s1) with (mk s1 last line). cbn [r_src st]. destruct (at_pos_next _ _ _ _ _ _ G1 P1 Lt1) as (-> & P2).
    assert (St : suffix t base). { eapply suffix_trans; [|exact S1]. eapply suffix_cons. eapply at_pos_rest. exact P1. }
    cbv zeta. cbn [p_step].
    assert (Flush : forall (k : list Z -> csv_reader -> option fields_step) p,
      (forall s2, good s2 -> s_rest s2 = t -> s_fails s2 = fails -> step_matches (k fp (mk s2 last line)) p) ->
      step_matches (match flush o (mk s1 last line) field1 ptr1 with
                    | None => None
                    | Some None => Some (Done false (done ++ field1 :: stale) (zlen done) (fail true EMaxLength (mk s1 last line)))
                    | Some (Some (field, r)) => k field r
                    end) (if too_long o fp then PDone (PFail EMaxLength) else p)).
    { intros k p K. destruct (flush_ok o (mk s1 last line) field1 ptr1 c t fp G1 P1 Lt1) as [(TL & ->)|(TL & s2 & G2 & R2 & F2 & ->)]; rewrite TL.
      - apply (step_fail EMaxLength); assumption.
      - change (with_src (mk s1 last line) s2) with (mk s2 last line). apply K; [exact G2|exact R2|cbn [r_src st] in F2; congruence]. }
    assert (Go : step_matches (Some (Scan done field1 stale (ptr1 + 1) (mk s1 last line))) (PScan t done (fp ++ [c]) line last)).
    { exists field1, stale, (ptr1 + 1), s1. auto. }
    destruct (class_of o c) eqn:Cl.
    + exact Go.
    + apply Flush. intros s2 G2 R2 F2. change (add_line (mk s2 last line)) with (mk s2 last (line + 1)). rewrite <- R2. apply newline_ok; auto. rewrite R2. exact St.
    + apply Flush. intros s2 G2 R2 F2. assert (S2 : suffix (s_rest s2) base) by (rewrite R2; exact St). pose proof (after_cr_ok s2 last line G2 F2 S2) as A.
      unfold p_after_cr. rewrite R2 in A. destruct t as [|c2 t2].
      * destruct A as (s3 & -> & G3 & F3 & R3). destruct (bool_cases fails) as [Fa|Fa]; [rewrite at_end_true by exact Fa|rewrite at_end_false by exact Fa]; rewrite Fa.
        -- apply (step_fail ESource); [exact G3|congruence|rewrite R3; apply suffix_nil].
        -- apply (step_fail EMissingLf); [exact G3|congruence|rewrite R3; apply suffix_nil].
      * destruct A as (s3 & G3 & F3 & A). destruct (c2 =? LF); destruct A as [-> R3].
        -- change (add_line (mk s3 last line)) with (mk s3 last (line + 1)). rewrite <- R3. apply newline_ok; auto. rewrite R3. eapply suffix_cons. exact St.
        -- apply (step_fail EMissingLf); [exact G3|congruence|]. rewrite R3. exact St.
    + assert (Z0 : (zlen done =? 0) && (zlen field1 =? 0) && (ptr1 =? 0) = (zlen done =? 0) && (zlen fp =? 0)).
      { destruct P1 as (H1 & _ & ->). destruct G1 as [W1 _]. unfold wf in W1. rewrite zlen_app, zlen_ztake. pose proof (zlen_nonneg field1). lia. }
      rewrite Z0. destruct ((zlen done =? 0) && (zlen fp =? 0)) eqn:Z1; [|exact Go].
      assert (ptr1 = 0) by lia. subst ptr1. assert (R1 : s_rest s1 = c :: t) by (destruct P1 as (_ & X & _); rewrite zdrop_nonpos in X by lia; congruence).
      destruct (move_good 1 s1 G1 ltac:(lia)) as (s2 & -> & G2 & R2 & F2). change (with_src (mk s1 last line) s2) with (mk s2 last line).
      destruct (SkipLine_st s2 last line G2) as (s3 & -> & G3 & R3 & F3). rewrite R2, R1 in R3. change (zdrop 1 (c :: t)) with t in R3. rewrite <- R3.
      apply next_record_ok; auto; [congruence|]. rewrite R3. eapply suffix_trans; [apply suffix_after_lf|exact St].
    + apply Flush. intros s2 G2 R2 F2. rewrite <- R2. apply next_field_ok; auto. rewrite R2. exact St.
    + apply Flush. intros s2 G2 R2 F2. assert (S2 : suffix (s_rest s2) base) by (rewrite R2; exact St). unfold ReadQuoted. destruct (negb (zlen fp =? 0)) eqn:N.
      { apply (step_fail EBeforeQuote); assumption. }
      assert (fp = []) as -> by (destruct fp; [reflexivity|exfalso; rewrite zlen_cons in N; pose proof (zlen_nonneg fp); lia]).
      pose proof (read_quoted_loop_ok (S (length (s_rest (r_src (mk s2 last line))))) s2 last line [] 0 t [] G2 F2 S2) as M.
      cbn [r_src st] in M |- *. rewrite R2 in M |- *. specialize (M ltac:(apply at_pos_0; [apply G2|exact R2]) ltac:(lia)).
      destruct (p_quoted o fails t [] line) as [f t' l|e] eqn:Q.
      * destruct M as (s3 & -> & G3 & R3 & F3 & S3). destruct (peek_st s3 last l G3 F3) as (s4 & G4 & R4 & F4 & Pk). rewrite R3 in *. unfold p_after_quoted.
        destruct t' as [|c2 t2].
        -- rewrite Pk. destruct (bool_cases fails) as [Fa|Fa]; [rewrite at_end_true by exact Fa|rewrite at_end_false by exact Fa]; rewrite Fa.
           ++ apply (step_fail ESource); [exact G4|congruence|rewrite R4; apply suffix_nil].
           ++ change (add_line (mk s4 last l)) with (mk s4 last (l + 1)). eexists. eexists. exists s4. split; [reflexivity|]. split; [apply vector_taken|]. split; [exact G4|]. split; [congruence|]. split; [exact R4|exact S3].
        -- destruct Pk as [-> Av]. cbn [r_src st]. destruct (move_good 1 s4 G4 ltac:(lia)) as (s5 & -> & G5 & R5 & F5). change (with_src (mk s4 last l) s5) with (mk s5 last l).
           rewrite R4 in R5. change (zdrop 1 (c2 :: t2)) with t2 in R5. assert (S5 : suffix (s_rest s5) base) by (rewrite R5; eapply suffix_cons; exact S3).
           assert (F5' : s_fails s5 = fails) by congruence.
           pose proof (p_quoted_not_quote o fails (length t) Options t [] line f c2 t2 l ltac:(lia) Q) as NQ.
           destruct (class_of o c2) eqn:Cl2; try congruence.
           ++ apply (step_fail EAfterQuote); assumption.
           ++ change (add_line (mk s5 last l)) with (mk s5 last (l + 1)). rewrite <- R5. apply done_ok; auto.
           ++ pose proof (after_cr_ok s5 last l G5 F5' S5) as A. unfold p_after_cr. rewrite R5 in A. destruct t2 as [|c3 t3].
              ** destruct A as (s6 & -> & G6 & F6 & R6). destruct (bool_cases fails) as [Fa|Fa]; [rewrite at_end_true by exact Fa|rewrite at_end_false by exact Fa]; rewrite Fa.
                 --- apply (step_fail ESource); [exact G6|congruence|rewrite R6; apply suffix_nil].
                 --- apply (step_fail EMissingLf); [exact G6|congruence|rewrite R6; apply suffix_nil].
              ** destruct A as (s6 & G6 & F6 & A). destruct (c3 =? LF); destruct A as [-> R6].
                 --- change (add_line (mk s6 last l)) with (mk s6 last (l + 1)). rewrite <- R6. apply done_ok; auto. rewrite R6. rewrite R5 in S5. eapply suffix_cons. exact S5.
                 --- apply (step_fail EMissingLf); [exact G6|congruence|]. rewrite R6. rewrite R5 in S5. exact S5.
           ++ apply (step_fail EAfterQuote); assumption.
           ++ rewrite <- R5. apply next_field_ok; auto.
           ++ apply (step_fail EAfterQuote); assumption.
      * destruct M as (f & r & -> & B). cbn. eexists. eexists. exists r. split; [reflexivity|exact B].
    + apply Flush. intros s2 G2 R2 F2. destruct (peek_st s2 last line G2 F2) as (s3 & G3 & R3 & F3 & Pk). rewrite R2 in *. destruct t as [|c2 t2].
      * rewrite Pk. destruct (bool_cases fails) as [Fa|Fa]; [rewrite at_end_true by exact Fa|rewrite at_end_false by exact Fa]; rewrite Fa.
        -- apply (step_fail ESource); [exact G3|congruence|rewrite R3; apply suffix_nil].
        -- apply (step_fail EMissingEscaped); [exact G3|congruence|rewrite R3; apply suffix_nil].
      * destruct Pk as [-> Av]. assert (P3 : at_pos s3 fp 0 (c2 :: t2) fp) by (apply at_pos_0; [apply G3|exact R3]). apply at_pos_next in P3; [|exact G3|lia]. destruct P3 as [_ P3].
        exists fp, stale, 1, s3. split; [reflexivity|]. split; [exact G3|]. split; [exact F3|]. split; [rewrite R3; exact St|exact P3].
Qed.
Lemma fields_loop_ok fuel : forall b p, (standalone = true -> index = 0) -> step_matches b p -> (step_length p <= fuel)%nat ->
  exists b0 res vector i r, b = Some b0 /\ p_loop o fails standalone fuel p = Some res /\
    fields_loop fuel o b0 = Some (match res with POk _ _ _ _ => true | _ => false end, vector, i, r) /\
    step_matches (Some (Done (match res with POk _ _ _ _ => true | _ => false end) vector i r)) (PDone res).
Proof.
  induction fuel as [|fuel IH]; intros b p Ix M L; destruct p as [res|text done fp line last]; cbn [step_length] in L; try lia.
  1, 2: destruct res as [fields rest line last|line|e]; cbn [step_matches] in M.
  1, 4: destruct M as (v & i & s & -> & M); eexists; exists (POk fields rest line last), v, i, (mk s last line); split; [reflexivity|]; split; [reflexivity|]; split; [reflexivity|]; exists v, i, s; auto.
  1, 3: destruct M as (v & i & s & -> & M); eexists; exists (PEnd line), v, i, (mk s line line); split; [reflexivity|]; split; [reflexivity|]; split; [reflexivity|]; exists v, i, s; auto.
  1, 2: destruct M as (v & i & r & -> & M); eexists; exists (PFail e), v, i, r; split; [reflexivity|]; split; [reflexivity|]; split; [reflexivity|]; exists v, i, r; auto.
  cbn [step_matches] in M. destruct M as (field & stale & ptr & s & -> & G & F & Sf & P). cbn [p_loop fields_loop].
  assert (L' : (step_length (p_step o fails standalone text done fp line last) <= fuel)%nat) by (pose proof (p_step_length o fails standalone text done fp line last); lia).
  destruct (scan_step_ok s last line done field stale ptr text fp G F Sf Ix P) as [M|(N & TL & v & i & r & E & B)].
  - destruct (IH _ _ Ix M L') as (b0 & res & v & i & r & E & E2 & E3 & E4). eexists. exists res, v, i, r. split; [reflexivity|]. cbn [fields_loop]. rewrite E. auto.
  - eexists. exists (PFail EMaxLength), v, i, r. split; [reflexivity|]. split.
    + assert (H := p_loop_long o fails standalone (S fuel) text done fp line last). cbn [p_loop] in H. apply H; [lia|exact N|exact TL].
    + cbn [fields_loop]. rewrite E. split; [destruct fuel; reflexivity|]. exists v, i, r. auto.
Qed.
End Lockstep.
Lemma ReadFields_ok o s standalone index last line record : reader_options_ok o = true -> 0 <= c_max_length o -> (standalone = true -> index = 0) -> good s ->
  exists res vector i r, p_record o (s_fails s) standalone (s_rest s) line = Some res /\
    ReadFields o (st s standalone index last line) record = Some (match res with POk _ _ _ _ => true | _ => false end, vector, i, r) /\
    step_matches (s_rest s) (s_fails s) standalone index (Some (Done (match res with POk _ _ _ _ => true | _ => false end) vector i r)) (PDone res).
Proof.
  intros Ok Max Ix G. unfold ReadFields, p_record. cbn [r_src st].
  pose proof (next_record_ok o (s_rest s) (s_fails s) standalone index s last line record G eq_refl (suffix_refl _) Ix) as M.
  destruct (fields_loop_ok o (s_rest s) (s_fails s) standalone index Ok Max (S (length (s_rest s))) _ _ Ix M) as (b0 & res & v & i & r & E & H).
  - apply p_next_record_length.
  - rewrite E. exists res, v, i, r. exact H.
Qed.
(** ReadRecord() without recovery *)
Lemma ReadRecord_pure o s standalone index last line record : reader_options_ok o = true -> 0 <= c_max_length o -> (standalone = true -> index = 0) -> good s ->
  exists res, p_record o (s_fails s) standalone (s_rest s) line = Some res /\
  match res with
  | POk fields rest line' last' => exists s', ReadRecord o None (st s standalone index last line) record = Some (true, fields, st s' standalone (index + 1) last' line') /\
      good s' /\ s_fails s' = s_fails s /\ s_rest s' = rest /\ suffix rest (s_rest s)
  | PEnd line' => exists s', ReadRecord o None (st s standalone index last line) record = Some (false, [], st s' standalone index line' line') /\
      good s' /\ s_fails s' = s_fails s /\ s_rest s' = []
  | PFail e => exists r, ReadRecord o None (st s standalone index last line) record = Some (false, [], r) /\ failed e (s_rest s) (s_fails s) standalone index r
  end.
Proof.
  intros Ok Max Ix G. destruct (ReadFields_ok o s standalone index last line record Ok Max Ix G) as (res & v & i & r & E & E2 & M). exists res. split; [exact E|].
  unfold ReadRecord. cbn [r_ok r_status r_standalone r_index st negb].
  replace (standalone && negb (index =? 0)) with false by (destruct standalone; [rewrite Ix by reflexivity|]; reflexivity). cbn [read_record_loop]. rewrite E2.
  destruct res as [fields rest line' last'|line'|e]; cbn [step_matches] in M.
  - destruct M as (v' & i' & s' & E3 & Tk & G' & F' & R' & S'). injection E3 as <- <- ->. exists s'. rewrite Tk. auto.
  - destruct M as (v' & i' & s' & E3 & G' & F' & R'). injection E3 as <- <- ->. exists s'. auto.
  - destruct M as (v' & i' & r' & E3 & B). injection E3 as <- <- <-. exists r. auto.
Qed.
(** *** With recovery: what is left by the attempts which failed is skipped up to the end of a line. *)
Lemma after_lf_shorter t : t <> [] -> (length (after_lf t) < length t)%nat.
Proof. destruct t as [|c t]; [congruence|]. intros _. cbn. destruct (c =? LF); [lia|]. pose proof (after_lf_length t). lia. Qed.
Lemma p_record_empty o fails standalone line e : 0 <= c_max_length o -> 1 <= c_max_fields o -> p_record o fails standalone [] line = Some (PFail e) -> e = ESource.
Proof.
  intros Ml Mf. unfold p_record, p_next_record, p_next_field, at_end. change (zlen (@nil (list Z))) with 0. replace (0 =? c_max_fields o) with false by lia.
  destruct standalone; cbn.
  - replace (too_long o []) with false by (unfold too_long; change (zlen (@nil Z)) with 0; lia). unfold at_end. destruct fails; congruence.
  - destruct fails; congruence.
Qed.
Lemma after_lf_start t : after_lf t = [] \/ exists before, t = before ++ [LF] ++ after_lf t.
Proof.
  induction t as [|c t IH]; cbn; [auto|]. destruct (c =? LF) eqn:E; [right; exists []; replace c with LF by lia; reflexivity|].
  destruct IH as [IH|(b & IH)]; [auto|]. right. exists (c :: b). cbn. cbn in IH. congruence.
Qed.
Lemma line_start_trans a b c : line_start a b -> line_start b c -> line_start a c.
Proof.
  unfold line_start. intros [->|[->|(x & ->)]] H; [exact H| |].
  - destruct H as [->|[->|(y & H)]]; auto. destruct y; discriminate H.
  - destruct H as [->|[->|(y & ->)]]; [eauto|auto|]. right. right. exists (x ++ [LF] ++ y). rewrite <- !app_assoc. reflexivity.
Qed.
Lemma line_start_after_lf base t : suffix t base -> line_start base (after_lf t).
Proof.
  intros (b & ->). destruct (after_lf_start t) as [->|(b' & E)]; [unfold line_start; auto|]. right. right. exists (b ++ b'). rewrite E at 1. rewrite <- !app_assoc. reflexivity.
Qed.
Definition recovered_result (o : reader_options) (fails standalone : bool) (index : Z) (text : list Z) (ok : bool) (record : list (list Z)) (r : csv_reader) : Prop :=
  match ok, r_status r with
  | true, None => exists line last, p_record o fails standalone text line = Some (POk record (s_rest (r_src r)) (r_line r) last)
  | true, Some _ => False
  | false, None => record = [] /\ r_index r = index /\ exists line, p_record o fails standalone text line = Some (PEnd (r_line r))
  | false, Some e => record = [] /\ r_recoverable r = false /\ recoverable e = false /\ exists line, p_record o fails standalone text line = Some (PFail e)
  end.
Lemma read_record_loop_ok o recover standalone index : reader_options_ok o = true -> 0 <= c_max_length o -> 1 <= c_max_fields o -> (standalone = true -> index = 0) ->
  forall fuel s last line record, good s -> (length (s_rest s) < fuel)%nat ->
  exists ok record' r', read_record_loop fuel o (Some recover) (st s standalone index last line) record = Some (ok, record', r') /\
    good (r_src r') /\ s_fails (r_src r') = s_fails s /\ suffix (s_rest (r_src r')) (s_rest s) /\ r_standalone r' = standalone /\
    (ok = true -> r_status r' = None /\ r_recoverable r' = false /\ r_index r' = index + 1) /\ (r_status r' = None -> r_recoverable r' = false) /\
    exists text', line_start (s_rest s) text' /\
      (recovered_result o (s_fails s) standalone index text' ok record' r' \/
       (r_status r' = None /\ s_rest (r_src r') = text' /\ (exists e r, recover e r = false) /\
        (if standalone then ok = true /\ record' = [[]] else ok = false /\ record' = [] /\ r_index r' = index))).
Proof.
  intros Ok Max Mf Ix. induction fuel as [|fuel IH]; intros s last line record G L; [lia|]. cbn [read_record_loop].
  destruct (ReadFields_ok o s standalone index last line record Ok Max Ix G) as (res & v & i & r & E & -> & M).
  destruct res as [fields rest line' last'|line'|e]; cbn [step_matches] in M.
  - destruct M as (v' & i' & s' & E3 & Tk & G' & F' & R' & S'). injection E3 as <- <- ->. eexists. eexists. eexists. split; [reflexivity|]. cbn.
    split; [exact G'|]. split; [exact F'|]. split; [rewrite R'; exact S'|]. split; [reflexivity|]. split; [auto|]. split; [auto|]. exists (s_rest s). split; [left; reflexivity|]. left.
    cbn. exists line, last'. rewrite Tk, R'. exact E.
  - destruct M as (v' & i' & s' & E3 & G' & F' & R'). injection E3 as <- <- ->. cbn [r_status st]. eexists. eexists. eexists. split; [reflexivity|]. cbn.
    split; [exact G'|]. split; [exact F'|]. split; [rewrite R'; apply suffix_nil|]. split; [reflexivity|]. split; [discriminate|]. split; [auto|]. exists (s_rest s). split; [left; reflexivity|]. left.
    cbn. split; [reflexivity|]. split; [reflexivity|]. exists line. exact E.
  - destruct M as (v' & i' & r' & E3 & B). injection E3 as <- <- <-. destruct B as (St & Rc & Gr & Fr & Sr & Sa & Ri). rewrite St, Rc.
    destruct (recoverable e) eqn:Re.
    + assert (Er : mark_not_failed r = CsvLockstep.st (r_src r) standalone index (r_last_line r) (r_line r)) by (unfold mark_not_failed, CsvLockstep.st; rewrite Sa, Ri; reflexivity).
      rewrite Er. destruct (SkipLine_st standalone index (r_src r) (r_last_line r) (r_line r) Gr) as (s2 & -> & G2 & R2 & F2).
      assert (S2 : suffix (s_rest s2) (s_rest s)) by (rewrite R2; eapply suffix_trans; [apply suffix_after_lf|exact Sr]).
      assert (B2 : line_start (s_rest s) (s_rest s2)) by (rewrite R2; apply line_start_after_lf; exact Sr).
      assert (L2 : (length (s_rest s2) < length (s_rest s))%nat).
      { destruct (s_rest s) as [|c t] eqn:Rs.
        - apply p_record_empty in E; [|assumption..]. subst e. discriminate Re.
        - rewrite R2. destruct (s_rest (r_src r)) as [|c2 t2] eqn:Rr; [cbn; lia|]. apply suffix_length in Sr. eapply Nat.lt_le_trans; [apply after_lf_shorter; discriminate|]. exact Sr. }
      destruct (recover e (CsvLockstep.st s2 standalone index (r_last_line r) (r_line r + 1))) eqn:Rv.
      * destruct (IH s2 (r_last_line r) (r_line r + 1) v G2 ltac:(lia)) as (ok & rec' & r' & E' & G' & F' & S' & Sa' & H1 & H2 & text' & H3 & H4). exists ok, rec', r'. split; [exact E'|]. split; [exact G'|]. split; [congruence|]. split; [eapply suffix_trans; eassumption|].
        split; [exact Sa'|]. split; [exact H1|]. split; [exact H2|]. exists text'. split; [eapply line_start_trans; eassumption|]. rewrite F2, Fr in H4. exact H4.
      * cbn [r_standalone CsvLockstep.st]. exists standalone. destruct standalone eqn:Sa'; (eexists; eexists; split; [reflexivity|]; cbn; split; [assumption|]; split; [congruence|]; split; [exact S2|]; split; [reflexivity|]; split; [auto; discriminate|]; split; [auto|]; exists (s_rest s2); split; [exact B2|]; right; repeat (split; [reflexivity || eauto|]); auto).
    + eexists. eexists. eexists. split; [reflexivity|]. split; [exact Gr|]. split; [exact Fr|]. split; [exact Sr|]. split; [exact Sa|]. split; [discriminate|]. split; [congruence|].
      exists (s_rest s). split; [left; reflexivity|]. left. unfold recovered_result. rewrite St. split; [reflexivity|]. split; [congruence|]. split; [exact Re|]. exists line. exact E.
Qed.
