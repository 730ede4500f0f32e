(** CsvReader and CsvWriter: reading records, round trips, HasNextRecord().  Model/Csv.v *)
From Verif Require Import Base.Bytes Model.BufferedSource Model.Lines Model.Csv Spec.LineSpec Spec.CsvSpec Proof.SourceProof Proof.TextProof Proof.CsvPure Proof.CsvLockstep Proof.CsvGrammar Proof.CsvWriterProof.

Lemma csv_readable_st r : csv_readable r -> r = st (r_src r) (r_standalone r) (r_index r) (r_last_line r) (r_line r) /\ good (r_src r).
Proof. intros (W & G & S1 & S2 & _). split; [|split; assumption]. destruct r. cbn in *. subst. reflexivity. Qed.
Lemma p_record_accepts o fails standalone text line fields rest : reader_options_ok o = true -> 1 <= c_max_fields o -> 0 <= c_max_length o ->
  accepts o fails standalone text fields rest <-> exists line' last', p_record o fails standalone text line = Some (POk fields rest line' last').
Proof.
  intros Ok Mf Ml. apply options_distinct in Ok. split.
  - intros (text1 & te & H1 & H2 & H3 & H4). eapply grammar_complete; eassumption.
  - intros (line' & last' & R). apply (grammar_sound o fails standalone Ok) in R; [|lia]. destruct R as (text1 & te & H1 & H2 & H3 & H4 & _). exists text1, te. auto.
Qed.
Lemma p_record_end o fails standalone text line : reader_options_ok o = true -> 1 <= c_max_fields o -> 0 <= c_max_length o ->
  (skips o text [] /\ fails = false /\ standalone = false) <-> exists line', p_record o fails standalone text line = Some (PEnd line').
Proof.
  intros Ok Mf Ml. apply options_distinct in Ok. split.
  - intros (H1 & H2 & H3). apply grammar_end_complete; assumption.
  - intros (line' & R). eapply grammar_end_sound; eassumption.
Qed.
Theorem ReadRecord_grammar o r record : reader_options_ok o = true -> 1 <= c_max_fields o -> 0 <= c_max_length o -> csv_readable r ->
  exists ok fields r', ReadRecord o None r record = Some (ok, fields, r') /\
    (forall fields' rest', (ok = true /\ fields = fields' /\ s_rest (r_src r') = rest') <-> accepts o (s_fails (r_src r)) (r_standalone r) (s_rest (r_src r)) fields' rest') /\
    ((ok = false /\ r_status r' = None) <-> (skips o (s_rest (r_src r)) [] /\ s_fails (r_src r) = false /\ r_standalone r = false)) /\
    0 <= s_avail (r_src r') <= zlen (s_rest (r_src r')) /\ (s_fails (r_src r') = false -> s_ok (r_src r') = true) /\
    s_fails (r_src r') = s_fails (r_src r) /\ r_standalone r' = r_standalone r /\ suffix (s_rest (r_src r')) (s_rest (r_src r)) /\
    (ok = true -> r_status r' = None /\ r_recoverable r' = false /\ r_index r' = r_index r + 1) /\
    (ok = false -> fields = [] /\ r_index r' = r_index r /\ (r_status r' = None -> r_recoverable r' = false /\ s_rest (r_src r') = [])) /\
    (ok = true -> r_standalone r = false -> c_escape o = None -> exists skipped text1 consumed terminated, s_rest (r_src r) = skipped ++ text1 /\ text1 = consumed ++ s_rest (r_src r') /\
       skips o (s_rest (r_src r)) text1 /\ record_at o false text1 fields terminated (s_rest (r_src r')) /\
       r_last_line r' = r_line r + count_lf skipped /\ r_line r' = r_last_line r' + count_lf consumed + (if terminated then 0 else 1)).
Proof.
  intros Ok Mf Ml R. destruct (csv_readable_st r R) as (E & G). pose proof R as (_ & _ & _ & _ & Ix).
  destruct (ReadRecord_pure o (r_src r) (r_standalone r) (r_index r) (r_last_line r) (r_line r) record Ok Ml Ix G) as (res & P & M). rewrite <- E in M.
  assert (A : forall fields rest, accepts o (s_fails (r_src r)) (r_standalone r) (s_rest (r_src r)) fields rest <-> exists line' last', res = POk fields rest line' last').
  { intros fields rest. rewrite (p_record_accepts o _ _ _ (r_line r) fields rest Ok Mf Ml), P. split; intros (l & l' & X); exists l, l'; congruence. }
  assert (Z0 : (skips o (s_rest (r_src r)) [] /\ s_fails (r_src r) = false /\ r_standalone r = false) <-> exists line', res = PEnd line').
  { rewrite (p_record_end o _ _ _ (r_line r) Ok Mf Ml), P. split; intros (l & X); exists l; congruence. }
  destruct res as [fields rest line' last'|line'|e].
  - destruct M as (s' & E' & [W' G'] & F' & R' & S'). exists true, fields. eexists. split; [exact E'|]. cbn [r_src r_status r_standalone r_index r_recoverable r_line r_last_line st].
    split; [intros f' r0; rewrite A; split; [intros (_ & -> & <-); rewrite R'; eauto|intros (l & l' & X); injection X as <- <- _ _; auto]|].
    split; [rewrite Z0; split; [intros (X & _); discriminate X|intros (l & X); discriminate X]|].
    split; [exact W'|]. split; [exact G'|]. split; [exact F'|]. split; [reflexivity|]. split; [rewrite R'; exact S'|]. split; [auto|]. split; [discriminate|].
    intros _ Sa Es. apply (grammar_sound o (s_fails (r_src r)) (r_standalone r) (options_distinct o Ok)) in P; [|lia]. destruct P as (text1 & te & H1 & H2 & H3 & H4 & H5 & H6). destruct (H5 Sa) as (sk & Es1 & El). destruct (H6 Es) as (co & Ec & El2).
    exists sk, text1, co, te. rewrite R'. rewrite Sa in H2. repeat (split; [assumption|]). assumption.
  - destruct M as (s' & E' & [W' G'] & F' & R'). exists false, []. eexists. split; [exact E'|]. cbn [r_src r_status r_standalone r_index r_recoverable r_line r_last_line st].
    split; [intros f' r0; rewrite A; split; [intros (X & _); discriminate X|intros (l & l' & X); discriminate X]|].
    split; [rewrite Z0; split; eauto|]. split; [exact W'|]. split; [exact G'|]. split; [exact F'|]. split; [reflexivity|]. split; [rewrite R'; apply suffix_nil|]. split; [discriminate|]. split; [auto|]. discriminate.
  - destruct M as (r' & E' & St & Rc & [W' G'] & F' & S' & Sa & Ri). exists false, [], r'. split; [exact E'|].
    split; [intros f' r0; rewrite A; split; [intros (X & _); discriminate X|intros (l & l' & X); discriminate X]|].
    split; [rewrite Z0; rewrite St; split; [intros (_ & X); discriminate X|intros (l & X); discriminate X]|].
    split; [exact W'|]. split; [exact G'|]. split; [exact F'|]. split; [exact Sa|]. split; [exact S'|]. split; [discriminate|]. split; [|discriminate]. intros _. rewrite St. split; [reflexivity|]. split; [exact Ri|discriminate].
Qed.
(** With recovery *)
Theorem ReadRecord_recovery o recover r record : reader_options_ok o = true -> 1 <= c_max_fields o -> 0 <= c_max_length o -> csv_readable r ->
  exists ok fields r' text', ReadRecord o (Some recover) r record = Some (ok, fields, r') /\ line_start (s_rest (r_src r)) text' /\
    0 <= s_avail (r_src r') <= zlen (s_rest (r_src r')) /\ (s_fails (r_src r') = false -> s_ok (r_src r') = true) /\ s_fails (r_src r') = s_fails (r_src r) /\
    suffix (s_rest (r_src r')) (s_rest (r_src r)) /\ r_standalone r' = r_standalone r /\ (r_status r' = None -> r_recoverable r' = false) /\
    (ok = true -> r_status r' = None /\ r_index r' = r_index r + 1) /\
    ((accepts o (s_fails (r_src r)) (r_standalone r) text' fields (s_rest (r_src r')) /\ ok = true) \/
     (ok = false /\ fields = [] /\ r_status r' = None /\ skips o text' [] /\ s_fails (r_src r) = false /\ r_standalone r = false /\ r_index r' = r_index r) \/
     (ok = false /\ fields = [] /\ r_recoverable r' = false /\ (r_status r' = Some ESource \/ r_status r' = Some EUnexpectedNewline \/ r_status r' = Some EOptions) /\
        ~ (exists fields rest, accepts o (s_fails (r_src r)) (r_standalone r) text' fields rest)) \/
     (r_status r' = None /\ s_rest (r_src r') = text' /\ (exists e r0, recover e r0 = false) /\
      (if r_standalone r then ok = true /\ fields = [[]] else ok = false /\ fields = [] /\ r_index r' = r_index r))).
Proof.
  intros Ok Mf Ml R. destruct (csv_readable_st r R) as (E & G). pose proof R as (_ & _ & _ & _ & Ix).
  unfold ReadRecord. rewrite E. cbn [r_ok r_status r_standalone r_index r_src st negb]. rewrite <- E.
  replace (r_standalone r && negb (r_index r =? 0)) with false by (destruct (r_standalone r); [rewrite Ix by reflexivity|]; reflexivity).
  destruct (read_record_loop_ok o recover (r_standalone r) (r_index r) Ok Ml Mf Ix (S (S (length (s_rest (r_src r))))) (r_src r) (r_last_line r) (r_line r) record G ltac:(lia))
    as (ok & fields & r' & E' & [W' G'] & F' & S' & Sa & H1 & H2 & text' & Ls & H). rewrite <- E in E'. exists ok, fields, r', text'. split; [exact E'|]. split; [exact Ls|].
  split; [exact W'|]. split; [exact G'|]. split; [exact F'|]. split; [exact S'|]. split; [exact Sa|]. split; [exact H2|]. split; [intro X; destruct (H1 X) as (A & _ & B); auto|].
  destruct H as [H|H]; [|right; right; right; exact H]. unfold recovered_result in H. destruct ok, (r_status r') as [e|] eqn:St; try contradiction.
  - left. split; [|reflexivity]. destruct H as (line & last & P). apply (p_record_accepts o _ _ _ line); eauto.
  - right. right. left. destruct H as (-> & Rr & Re & line & P). split; [reflexivity|]. split; [reflexivity|]. split; [exact Rr|]. split; [destruct e; try discriminate Re; auto|].
    intros (fs & rest & A). apply (p_record_accepts o _ _ _ line) in A; [|assumption..]. destruct A as (l & l' & X). congruence.
  - right. left. destruct H as (-> & Ri & line & P). split; [reflexivity|]. split; [reflexivity|]. split; [reflexivity|].
    assert (X : skips o text' [] /\ s_fails (r_src r) = false /\ r_standalone r = false) by (apply (p_record_end o _ _ _ line); eauto). tauto.
Qed.

(** ** Opening *)
Lemma open_csv_ok o standalone s : reader_options_ok o = true -> wf s -> s_ok s = true -> exists s', open_csv o standalone s = Some (st s' standalone 0 1 1) /\ good s' /\ s_fails s' = s_fails s /\
  (forall rest, c_preserve_bom o = false -> s_rest s = kUtf8Bom ++ rest -> s_rest s' = rest) /\
  ((c_preserve_bom o = true \/ not_bom (s_rest s)) -> s_rest s' = s_rest s).
Proof.
  intros Ok W Os. unfold open_csv. rewrite Ok, Os. cbn [negb]. destruct (c_preserve_bom o).
  - exists s. split; [reflexivity|]. split; [split; auto|]. split; [reflexivity|]. split; [discriminate|auto].
  - destruct (SkipUtf8Bom_ok s (conj W Os)) as (s' & -> & W' & F' & O' & R1 & R2). exists s'. split; [reflexivity|]. split; [split; [exact W'|intro X; apply O'; left; congruence]|]. split; [exact F'|]. split; [auto|].
    intros [X|X]; [discriminate X|auto].
Qed.

(** ** Writing and reading *)
Lemma could_be_bom_spec w field : could_be_bom w field = false <-> forall t t', field ++ [w_sep w] ++ t <> kUtf8Bom ++ t'.
Proof.
  unfold kUtf8Bom. split.
  - intros B t t' X. destruct field as [|c0 [|c1 [|c2 field]]]; cbn [could_be_bom app] in *; injection X; intros; subst; lia.
  - intro H. destruct field as [|c0 [|c1 [|c2 field]]]; cbn [could_be_bom app] in *.
    + destruct (w_sep w =? 239) eqn:E; [|reflexivity]. exfalso. apply (H [0xbb; 0xbf] []). cbn. repeat f_equal. lia.
    + destruct ((c0 =? 239) && (w_sep w =? 187)) eqn:E; [|reflexivity]. exfalso. apply (H [0xbf] []). cbn. repeat f_equal; lia.
    + destruct ((c0 =? 239) && ((c1 =? 187) && (w_sep w =? 191))) eqn:E; [|reflexivity]. exfalso. apply (H [] []). cbn. repeat f_equal; lia.
    + destruct ((c0 =? 239) && ((c1 =? 187) && (c2 =? 191))) eqn:E; [|reflexivity]. exfalso. apply (H [] (field ++ [w_sep w])). cbn. repeat f_equal; try lia.
Qed.
Section Trip.
Context (w : writer_options) (o : reader_options) (Match : matching w o) (Wok : writer_options_ok w = true) (Mf : 1 <= c_max_fields o) (Ml : 0 <= c_max_length o).
Definition record_ok (record : list (list Z)) : Prop := record <> [] /\ writable w record /\ within_limits o record /\ (w_quote w = None -> c_skip_empty o = true -> record <> [[]]).
Lemma Rok : reader_options_ok o = true. Proof. apply (matching_ok w); assumption. Qed.
Lemma write_records_ok records : Forall record_ok records -> exists bytes, write_records w records = Some (Written bytes) /\
  (bom_safe w o records -> w_bom w = false -> c_preserve_bom o = true \/ not_bom bytes) /\
  forall r record, csv_readable r -> r_standalone r = false -> s_fails (r_src r) = false -> s_rest (r_src r) = bytes ->
  forall fuel, (length records < fuel)%nat -> exists r', read_csv fuel o r record = Some (records, r') /\ r_status r' = None /\ s_rest (r_src r') = [] /\ r_index r' = r_index r + zlen records.
Proof.
  pose proof Rok as Ok. pose proof (options_distinct o Ok) as Di. induction records as [|record records IH]; intro H; cbn [write_records].
  - exists []. split; [reflexivity|]. split; [intros _ _; right; intros rest X; discriminate X|]. intros r rec R Sa F Rs fuel L. destruct fuel as [|fuel]; [cbn in L; lia|].
    destruct (ReadRecord_grammar o r rec Ok Mf Ml R) as (ok & fields & r' & E & _ & En & _ & _ & _ & _ & _ & _ & H2 & _). cbn [read_csv]. rewrite E.
    assert (X : ok = false /\ r_status r' = None) by (apply En; rewrite Rs; split; [constructor|auto]). destruct X as [-> Sn]. destruct (H2 eq_refl) as (_ & Ri & H3). destruct (H3 Sn) as (_ & Rr).
    exists r'. split; [reflexivity|]. split; [exact Sn|]. split; [exact Rr|]. rewrite Ri. change (zlen (@nil (list (list Z)))) with 0. lia.
  - apply Forall_cons_iff in H. destruct H as [(Ne & Wr & Li & Em) H]. destruct (IH H) as (bytes & -> & _ & Rd).
    destruct (WriteRecord_ok w o Match Di false record Ne Wr) as (text & -> & Ft & NC & Nn & NB). cbn [written_app]. exists ((text ++ nl_bytes w) ++ bytes). split; [reflexivity|]. split.
    + unfold bom_safe. intros B Wb. rewrite Wb in B. destruct B as [B|B]; [left; exact B|right]. rewrite <- app_assoc. apply NB.
      * intros q Q. rewrite Q in B. exact B.
      * intros Q field more ->. rewrite Q in B. apply could_be_bom_spec. intros t t'. eapply B. reflexivity.
    + intros r rec R Sa F Rs fuel L. destruct fuel as [|fuel]; [cbn in L; lia|].
      destruct (ReadRecord_grammar o r rec Ok Mf Ml R) as (ok & fields & r' & E & Ac & _ & W' & G' & F' & Sa' & _ & H1 & _). cbn [read_csv]. rewrite E.
      assert (X : ok = true /\ fields = record /\ s_rest (r_src r') = bytes).
      { apply Ac. exists (s_rest (r_src r)), true. split; [constructor|]. split; [|split; [exact Li|discriminate]]. rewrite Rs, <- app_assoc. constructor; auto; [apply nl_break|].
        intros Sk. apply Nn. destruct (w_quote w); [left; discriminate|right; apply Em; auto]. }
      destruct X as (-> & -> & Rr). destruct (H1 eq_refl) as (Sn & Rc & Ri).
      destruct (Rd r' record) with (fuel := fuel) as (r2 & E2 & St2 & R2 & I2); [|congruence|congruence|exact Rr|cbn in L; lia|].
      * repeat split; auto; try lia.
      * rewrite E2. exists r2. split; [reflexivity|]. split; [exact St2|]. split; [exact R2|]. rewrite I2, Ri, zlen_cons. lia.
Qed.
Theorem csv_round_trip records : Forall record_ok records -> bom_safe w o records ->
  exists bytes, write_csv w records = Some (Written bytes) /\
  forall s record fuel, wf s -> s_ok s = true -> s_fails s = false -> s_rest s = bytes -> (length records < fuel)%nat ->
  exists r r', open_csv o false s = Some r /\ read_csv fuel o r record = Some (records, r') /\ r_status r' = None /\ s_rest (r_src r') = [] /\ r_index r' = zlen records.
Proof.
  intros H B. destruct (write_records_ok records H) as (bytes & E & Bo & Rd). unfold write_csv. rewrite Wok, E. cbn [written_app]. eexists. split; [reflexivity|].
  intros s record fuel W Os Fs Rs L. destruct (open_csv_ok o false s Rok W Os) as (s' & E' & G' & F' & R1 & R2). exists (st s' false 0 1 1).
  assert (Rs' : s_rest s' = bytes).
  { unfold bom_safe in B, Bo. destruct (w_bom w); [apply R1; [exact B|exact Rs]|]. cbn [app] in Rs. rewrite R2; [exact Rs|]. rewrite Rs. apply Bo; [exact B|reflexivity]. }
  destruct (Rd (st s' false 0 1 1) record) with (fuel := fuel) as (r' & E2 & H2); auto.
  - destruct G'. repeat split; auto; try apply H0; discriminate.
  - cbn. congruence.
  - exists r'. auto.
Qed.
Theorem csv_standalone_round_trip recovery record old : record <> [] -> writable w record -> within_limits o record -> bom_safe w o [record] ->
  exists bytes, WriteCsvRecordToString w record = Some (Written bytes) /\ ReadCsvRecordFromString o recovery bytes old = Some (None, record).
Proof.
  intros Ne Wr Li B. pose proof Rok as Ok. pose proof (options_distinct o Ok) as Di. destruct (WriteRecord_ok w o Match Di true record Ne Wr) as (text & E & Ft & NC & _ & NB).
  unfold WriteCsvRecordToString. rewrite Wok, E, app_nil_r. cbn [written_app]. eexists. split; [reflexivity|].
  unfold ReadCsvRecordFromString. set (bytes := (if w_bom w then WriteUtf8Bom else []) ++ text).
  destruct (open_csv_ok o true (string_source bytes) Ok) as (s' & -> & G' & F' & R1 & R2); [unfold wf; cbn; pose proof (zlen_nonneg bytes); lia|reflexivity|].
  assert (Rs' : s_rest s' = text).
  { unfold bom_safe in B. unfold bytes in *. destruct (w_bom w); [apply R1; [exact B|reflexivity]|]. cbn [app string_source s_rest] in *. apply R2. destruct B as [B|B]; [left; exact B|right]. rewrite <- (app_nil_r text). refine (NB _ _ []).
    - intros q Q. rewrite Q in B. exact B.
    - intros Q field more ->. rewrite Q in B. apply could_be_bom_spec. intros t t'. eapply B. reflexivity. }
  assert (P : exists line' last', p_record o (s_fails s') true (s_rest s') 1 = Some (POk record [] line' last')).
  { apply (p_record_accepts o); auto. exists text, false. rewrite Rs'. split; [constructor|]. split; [constructor; auto; discriminate|]. split; [exact Li|]. intros _. rewrite F'. reflexivity. }
  destruct P as (line' & last' & P). destruct (ReadFields_ok o s' true 0 1 1 old Ok Ml (fun _ => eq_refl) G') as (res & v & i & r & P' & E2 & M). rewrite P in P'. injection P' as <-.
  cbn [step_matches] in M. destruct M as (v' & i' & s2 & E3 & Tk & _). injection E3 as <- <- ->. unfold ReadRecord. cbn [r_ok r_status r_standalone r_index st negb andb Z.eqb read_record_loop]. rewrite E2. rewrite Tk. reflexivity.
Qed.
End Trip.

(** ** HasNextRecord() *)
Definition has_next_result (o : reader_options) (fails : bool) (text : list Z) (b : bool) (r : csv_reader) : Prop :=
  exists text1, skips o text text1 /\ good (r_src r) /\ s_fails (r_src r) = fails /\
    ((b = true /\ r_status r = None /\ r_recoverable r = false /\ text1 <> [] /\ no_comment o text1 /\ (c_skip_empty o = true -> forall nl t, line_break nl -> text1 <> nl ++ t) /\
      (s_rest (r_src r) = text1 \/ (text1 = CR :: s_rest (r_src r) /\ c_skip_empty o = false /\ exists t, s_rest (r_src r) = LF :: t))) \/
     (b = false /\ r_status r = Some ESource /\ fails = true) \/
     (b = false /\ r_status r = None /\ r_recoverable r = false /\ fails = false /\ text1 = [] /\ s_rest (r_src r) = []) \/
     (b = false /\ r_status r = None /\ r_recoverable r = false /\ text1 = CR :: s_rest (r_src r) /\ (forall t, s_rest (r_src r) <> LF :: t))).
Lemma has_next_more o fails before text b r : (forall t1, skips o text t1 -> skips o (before ++ text) t1) -> has_next_result o fails text b r -> has_next_result o fails (before ++ text) b r.
Proof. intros Sk (text1 & S1 & H). exists text1. split; [apply Sk; exact S1|exact H]. Qed.
Lemma has_next_loop_ok o standalone index fails : distinct o -> forall fuel s last line, good s -> s_fails s = fails -> (length (s_rest s) < fuel)%nat ->
  exists b r, has_next_loop fuel o (st s standalone index last line) = Some (b, r) /\ has_next_result o fails (s_rest s) b r /\ r_standalone r = standalone /\ r_index r = index.
Proof.
  intro Di. induction fuel as [|fuel IH]; intros s last line G F L; [lia|]. cbn [has_next_loop]. change (start_line (st s standalone index last line)) with (st s standalone index line line).
  destruct (peek_st fails standalone index s line line G F) as (s1 & G1 & R1 & F1 & P). destruct (s_rest s) as [|c t] eqn:Rs.
  - destruct (bool_cases fails) as [Fa|Fa]; [rewrite (if_true fails _ _ _ Fa) in P|rewrite (if_false fails _ _ _ Fa) in P]; rewrite P; (eexists; eexists; split; [reflexivity|]; split; [|auto]; exists []; split; [constructor|]; split; [exact G1|]; split; [exact F1|]).
    + right. left. auto.
    + right. right. left. cbn [r_status r_recoverable r_src st]. repeat (split; [reflexivity || assumption|]). assumption.
  - destruct P as [-> Av]. pose proof (class_spec o c Di) as M.
    assert (Lf : forall s2 t2 (Pre : list Z), good s2 -> s_fails s2 = fails -> s_rest s2 = LF :: t2 -> 1 <= s_avail s2 -> line_break (Pre ++ [LF]) -> c :: t = Pre ++ LF :: t2 ->
      exists b r, (if c_skip_empty o then match move_cursor 1 (r_src (st s2 standalone index line line)) with None => None | Some s => has_next_loop fuel o (with_src (add_line (st s2 standalone index line line)) s) end
        else Some (true, st s2 standalone index line line)) = Some (b, r) /\ has_next_result o fails (c :: t) b r /\ r_standalone r = standalone /\ r_index r = index).
    { intros s2 t2 Pre G2 F2 R2 Av2 Nl Eq. destruct (c_skip_empty o) eqn:Sk.
      - cbn [r_src st]. destruct (move_good 1 s2 G2 ltac:(lia)) as (s3 & -> & G3 & R3 & F3). rewrite R2 in R3. change (zdrop 1 (LF :: t2)) with t2 in R3.
        change (with_src (add_line (st s2 standalone index line line)) s3) with (st s3 standalone index line (line + 1)).
        assert (L3 : (length t2 < fuel)%nat) by (assert (X : length (c :: t) = length (Pre ++ LF :: t2)) by congruence; rewrite app_length in X; cbn in X, L; lia).
        destruct (IH s3 line (line + 1) G3 ltac:(congruence) ltac:(rewrite R3; exact L3)) as (b & r & E & H & H'). exists b, r. split; [exact E|]. split; [|exact H']. rewrite Eq.
        replace (Pre ++ LF :: t2) with ((Pre ++ [LF]) ++ t2) by (rewrite <- app_assoc; reflexivity). apply has_next_more; [|rewrite <- R3; exact H]. intros t1 Ht. apply skips_empty; assumption.
      - eexists. eexists. split; [reflexivity|]. split; [|auto]. exists (c :: t). split; [constructor|]. split; [exact G2|]. split; [exact F2|]. left. cbn [r_status r_recoverable r_src st]. repeat (split; [reflexivity || discriminate|]).
        split; [intros d t' Cd X; destruct Di as [(D1 & D2) _ _ _]; destruct Nl as [Nl|Nl]; [destruct Pre as [|x Pre]; [|destruct Pre; discriminate Nl]|destruct Pre as [|x [|]]; try discriminate Nl]; cbn [app] in *; congruence|].
        split; [congruence|]. destruct Nl as [Nl|Nl]; [destruct Pre as [|x Pre]; [|destruct Pre; discriminate Nl]; left; cbn [app] in Eq; congruence|].
        right. rewrite R2. destruct Pre as [|x [|]]; try discriminate Nl; [|destruct l; discriminate Nl]. injection Nl as ->. cbn [app] in Eq. split; [exact Eq|]. split; [assumption|eauto]. }
    assert (Other : (forall d t', c_comment o = Some d -> c :: t <> d :: t') -> c <> LF -> c <> CR ->
      exists b r, Some (true, st s1 standalone index line line) = Some (b, r) /\ has_next_result o fails (c :: t) b r /\ r_standalone r = standalone /\ r_index r = index).
    { intros NC N1 N2. eexists. eexists. split; [reflexivity|]. split; [|auto]. exists (c :: t). split; [constructor|]. split; [exact G1|]. split; [exact F1|]. left. cbn [r_status r_recoverable r_src st]. repeat (split; [reflexivity || discriminate|]).
      split; [exact NC|]. split; [intros _ nl t' [->| ->] X; injection X as X _; contradiction|]. left. exact R1. }
    destruct Di as [D1 (D2 & D2' & D2'') (D3 & D3' & _ & D3'') (D4 & D4' & _ & D4'' & _)].
    destruct (class_of o c) eqn:Cl; cbn [class_meaning] in M.
    + destruct M as [(N1 & N2 & _) M]. apply Other; [|assumption..]. intros d t' Cd X. congruence.
    + subst c. apply (Lf s1 t []); auto. left. reflexivity.
    + subst c. cbn [r_src st]. destruct (move_good 1 s1 G1 ltac:(lia)) as (s2 & -> & G2 & R2 & F2). rewrite R1 in R2. change (zdrop 1 (CR :: t)) with t in R2.
      change (with_src (st s1 standalone index line line) s2) with (st s2 standalone index line line). assert (F2' : s_fails s2 = fails) by congruence.
      destruct (peek_st fails standalone index s2 line line G2 F2') as (s3 & G3 & R3 & F3 & P). rewrite R2 in P, R3. destruct t as [|c2 t2].
      * destruct (bool_cases fails) as [Fa|Fa]; [rewrite (if_true fails _ _ _ Fa) in P|rewrite (if_false fails _ _ _ Fa) in P]; rewrite P; (eexists; eexists; split; [reflexivity|]; split; [|auto]; exists [CR]; split; [constructor|]; split; [exact G3|]; split; [exact F3|]).
        -- right. left. auto.
        -- right. right. right. cbn [r_status r_recoverable r_src st]. rewrite R3. repeat (split; [reflexivity|]). discriminate.
      * destruct P as [-> Av3]. destruct (c2 =? LF) eqn:E2; cbn [negb].
        -- assert (c2 = LF) by lia. subst c2. apply (Lf s3 t2 [CR]); auto. right. reflexivity.
        -- eexists. eexists. split; [reflexivity|]. split; [|auto]. exists (CR :: c2 :: t2). split; [constructor|]. split; [exact G3|]. split; [exact F3|]. right. right. right. cbn [r_status r_recoverable r_src st]. rewrite R3.
           repeat (split; [reflexivity|]). intros t' X. injection X as X _. subst. discriminate E2.
    + destruct M as [(N1 & _) Cc]. destruct (SkipLine_st standalone index s1 line line G1) as (s2 & -> & G2 & R2 & F2). rewrite R1 in R2. cbn [after_lf] in R2. replace (c =? LF) with false in R2 by lia.
      assert (L2 : (length (s_rest s2) < fuel)%nat) by (rewrite R2; pose proof (after_lf_length t); cbn in L; lia).
      destruct (IH s2 line (line + 1) G2 ltac:(congruence) L2) as (b & r & E & H & H'). exists b, r. split; [exact E|]. split; [|exact H']. rewrite R2 in H.
      destruct (after_lf_skip o c t Cc) as [(ln & N & -> & A)|(ln & N & A)].
      * rewrite A in H. destruct H as (text1 & S1 & H). apply skips_nil in S1. subst text1. exists []. split; [apply skips_last_comment; assumption|exact H].
      * rewrite A. replace (c :: ln ++ [LF] ++ after_lf t) with ((c :: ln ++ [LF]) ++ after_lf t) by (cbn; rewrite <- app_assoc; reflexivity). apply has_next_more; [|exact H].
        intros t1 Ht. cbn. rewrite <- app_assoc. apply skips_comment; assumption.
    + subst c. apply Other; [intros d t' Cd X; congruence|assumption..].
    + apply Other; [intros d t' Cd X; injection X as <- _; eapply D3''; eassumption|congruence..].
    + apply Other; [intros d t' Cd X; injection X as <- _; eapply D4''; eassumption|congruence..].
Qed.
Theorem HasNextRecord_ok o r : reader_options_ok o = true -> csv_readable r -> exists b r', HasNextRecord o r = Some (b, r') /\
  has_next_result o (s_fails (r_src r)) (s_rest (r_src r)) b r' /\ r_standalone r' = r_standalone r /\ r_index r' = r_index r.
Proof.
  intros Ok R. destruct (csv_readable_st r R) as (E & G). pose proof R as (_ & _ & Sn & _). unfold HasNextRecord, r_ok. rewrite Sn. cbn [negb].
  destruct (has_next_loop_ok o (r_standalone r) (r_index r) (s_fails (r_src r)) (options_distinct o Ok) (S (length (s_rest (r_src r)))) (r_src r) (r_last_line r) (r_line r) G eq_refl ltac:(lia)) as (b & r' & E' & H).
  rewrite <- E in E'. exists b, r'. auto.
Qed.
(** Lines which are skipped do not change what is accepted. *)
Lemma skips_trans o a b c : skips o a b -> skips o b c -> skips o a c.
Proof. intro H. induction H; intro H2; [exact H2|apply skips_comment; auto|apply skips_nil in H2; subst; apply skips_last_comment; assumption|apply skips_empty; auto]. Qed.
Lemma accepts_skips o fails standalone text text1 fields rest : reader_options_ok o = true -> 1 <= c_max_fields o -> 0 <= c_max_length o -> skips o text text1 ->
  (accepts o fails standalone text fields rest <-> accepts o fails standalone text1 fields rest).
Proof.
  intros Ok Mf Ml Sk. destruct (run_skips o fails standalone (options_distinct o Ok) text text1 Mf Ml Sk 0) as (l1 & Run). split.
  - intro A. destruct (p_loop_some o fails standalone (S (length text1)) (p_next_record o fails standalone text1 l1)) as (res & E); [apply p_next_record_length|].
    assert (R1 : runs o fails standalone (p_next_record o fails standalone text1 l1) res) by (eexists; exact E). apply (p_record_accepts o fails standalone text 0 fields rest Ok Mf Ml) in A. destruct A as (a & b & A).
    pose proof (Run _ R1) as R2. apply p_record_runs in A. pose proof (runs_unique _ _ _ _ _ _ A R2) as X. subst res. apply (p_record_accepts o fails standalone text1 l1 fields rest Ok Mf Ml). exists a, b. exact E.
  - intros (t1 & te & H1 & H). exists t1, te. split; [eapply skips_trans; eassumption|exact H].
Qed.
Theorem HasNextRecord_read o r r' : reader_options_ok o = true -> 1 <= c_max_fields o -> 0 <= c_max_length o -> csv_readable r -> r_standalone r = false -> HasNextRecord o r = Some (true, r') ->
  csv_readable r' /\ forall fields rest, accepts o (s_fails (r_src r)) false (s_rest (r_src r)) fields rest <-> accepts o (s_fails (r_src r')) false (s_rest (r_src r')) fields rest.
Proof.
  intros Ok Mf Ml R Sa E. destruct (HasNextRecord_ok o r Ok R) as (b & r2 & E2 & H & Sa2 & Ix). rewrite E in E2. injection E2 as <- <-. destruct H as (text1 & Sk & [W G] & F & H).
  destruct H as [(_ & Sn & Rc & Ne & NC & NE & H)|[(X & _)|[(X & _)|(X & _)]]]; try discriminate X.
  split; [repeat split; auto; try apply W; congruence|]. intros fields rest. rewrite F. rewrite (accepts_skips o _ _ _ _ fields rest Ok Mf Ml Sk).
  destruct H as [->|(-> & Se & t & ->)]; [reflexivity|]. pose proof (options_distinct o Ok) as Di.
  assert (A : forall text, text = LF :: t \/ text = CR :: LF :: t -> (accepts o (s_fails (r_src r)) false text fields rest <-> fields = [[]] /\ rest = t)).
  { intros text Ht. rewrite (p_record_accepts o _ _ _ 0 fields rest Ok Mf Ml).
    assert (P : exists l l', p_record o (s_fails (r_src r)) false text 0 = Some (POk [[]] t l l')).
    { apply (p_record_accepts o); auto. exists text, true. split; [constructor|]. assert (Hn : exists nl, line_break nl /\ text = [] ++ nl ++ t) by (destruct Ht as [->| ->]; [exists [LF]|exists [CR; LF]]; (split; [unfold line_break; auto|reflexivity])).
      destruct Hn as (nl & Hn & ->). split; [constructor; auto; [constructor; apply field_unquoted; constructor|intros c t' _; discriminate|congruence]|]. split; [split; [change (zlen [@nil Z]) with 1; lia|constructor; [change (zlen (@nil Z)) with 0; lia|constructor]]|discriminate]. }
    destruct P as (l & l' & P). rewrite P. split; [intros (a & b & X); injection X as <- <- _ _; auto|intros (-> & ->); eauto]. }
  rewrite (A (CR :: LF :: t)), (A (LF :: t)); auto. reflexivity.
Qed.
(** ** Writing without quotes *)
Lemma write_csv_fails w records : w_quote w = None -> writer_options_ok w = true ->
  exists res, write_csv w records = Some res /\ (res = WriteFailed <-> exists record field c, In record records /\ In field record /\ In c field /\ special w c).
Proof.
  intros Q Ok. unfold write_csv. rewrite Ok.
  assert (H : exists res, write_records w records = Some res /\ (res = WriteFailed <-> exists record field c, In record records /\ In field record /\ In c field /\ special w c)).
  { induction records as [|record records IH]; cbn [write_records]; [exists (Written []); split; [reflexivity|]; split; [discriminate|intros (r & _ & _ & [] & _)]|].
    destruct IH as (r2 & -> & H2). destruct (WriteRecord_total w false record Q) as (r1 & -> & H1).
    assert (N : ~ Forall (plain w) record <-> exists field c, In field record /\ In c field /\ special w c).
    { clear -record. induction record as [|f record IH]; [split; [intro X; exfalso; apply X; constructor|intros (f & c & [] & _)]|]. split.
      - intro X. destruct (first_needed w f) as [i|] eqn:E.
        + apply first_needed_some in E. destruct E as (_ & (c & A & B) & _). exists f, c. split; [left; reflexivity|auto].
        + assert (Y : exists field c, In field record /\ In c field /\ special w c) by (apply IH; intro Y; apply X; constructor; [exact (proj1 (first_needed_none w f) E)|exact Y]). destruct Y as (g & c & A & B). exists g, c. split; [right; exact A|exact B].
      - intros (g & c & A & B & C) X. rewrite Forall_forall in X. exact (X g A c B C). }
    rewrite N in H1. destruct r1 as [b1|].
    - destruct r2 as [b2|]; cbn [written_app].
      + eexists. split; [reflexivity|]. split; [discriminate|]. intros (rec & f & c & [<-|A] & B); [assert (X : Written b1 = WriteFailed) by (apply H1; eauto); discriminate X|assert (X : Written b2 = WriteFailed) by (apply H2; eauto); discriminate X].
      + eexists. split; [reflexivity|]. split; [|reflexivity]. intros _. destruct (proj1 H2 eq_refl) as (rec & f & c & A & B). exists rec, f, c. split; [right; exact A|exact B].
    - rewrite written_app_failed_l. eexists. split; [reflexivity|]. split; [|reflexivity]. intros _. destruct (proj1 H1 eq_refl) as (f & c & A). exists record, f, c. split; [left; reflexivity|exact A]. }
  destruct H as (res & -> & H). destruct res; cbn [written_app]; eexists; (split; [reflexivity|]); rewrite <- H; split; congruence.
Qed.
(** ** HasNextRecord(), from the point of view of the caller *)
Lemma skips_end o text text1 : reader_options_ok o = true -> 1 <= c_max_fields o -> 0 <= c_max_length o -> skips o text text1 -> skips o text [] -> skips o text1 [].
Proof.
  intros Ok Mf Ml S1 S2. destruct (run_skips o false false (options_distinct o Ok) text text1 Mf Ml S1 0) as (l1 & Run).
  destruct (p_loop_some o false false (S (length text1)) (p_next_record o false false text1 l1)) as (res & E); [apply p_next_record_length|].
  assert (A : exists line', p_record o false false text 0 = Some (PEnd line')) by (apply p_record_end; auto). destruct A as (l & A). apply p_record_runs in A.
  assert (R1 : runs o false false (p_next_record o false false text1 l1) res) by (eexists; exact E). pose proof (runs_unique _ _ _ _ _ _ A (Run _ R1)) as X. subst res.
  apply (p_record_end o false false text1 l1 Ok Mf Ml). exists l. exact E.
Qed.
Theorem HasNextRecord_grammar o r : reader_options_ok o = true -> 1 <= c_max_fields o -> 0 <= c_max_length o -> csv_readable r -> r_standalone r = false ->
  exists b r', HasNextRecord o r = Some (b, r') /\ r_index r' = r_index r /\
    (b = true -> csv_readable r' /\ s_fails (r_src r') = s_fails (r_src r) /\ ~ skips o (s_rest (r_src r)) [] /\
       forall fields rest, accepts o (s_fails (r_src r)) false (s_rest (r_src r)) fields rest <-> accepts o (s_fails (r_src r')) false (s_rest (r_src r')) fields rest) /\
    (b = false ->
       (r_status r' = Some ESource /\ s_fails (r_src r) = true) \/
       (r_status r' = None /\ skips o (s_rest (r_src r)) [] /\ s_fails (r_src r) = false /\ s_rest (r_src r') = []) \/
       (r_status r' = None /\ skips o (s_rest (r_src r)) (CR :: s_rest (r_src r')) /\ forall t, s_rest (r_src r') <> LF :: t)).
Proof.
  intros Ok Mf Ml R Sa. destruct (HasNextRecord_ok o r Ok R) as (b & r' & E & H & Sa' & Ix). exists b, r'. split; [exact E|]. split; [exact Ix|]. split.
  - intros ->. destruct (HasNextRecord_read o r r' Ok Mf Ml R Sa E) as (R' & A). split; [exact R'|]. destruct H as (text1 & Sk & _ & F & H). split; [exact F|]. split; [|exact A].
    intro S0. pose proof (skips_end o _ _ Ok Mf Ml Sk S0) as S1. destruct H as [(_ & _ & _ & Ne & NC & NE & _)|[(X & _)|[(X & _)|(X & _)]]]; try discriminate X.
    inversion S1 as [x Ex|c ln text rest Cc Nl S2|c ln Cc Nl|nl text rest Se Nl S2]; subst; [congruence|..].
    + eapply NC; [exact Cc|reflexivity].
    + eapply NC; [exact Cc|reflexivity].
    + eapply NE; [exact Se|exact Nl|reflexivity].
  - intros ->. destruct H as (text1 & Sk & _ & F & H). destruct H as [(X & _)|[(_ & H1 & H2)|[(_ & H1 & _ & H2 & H3 & H4)|(_ & H1 & _ & H2 & H3)]]]; [discriminate X|left; auto|right; left; subst text1; auto|right; right; subst text1; auto].
Qed.
