(** CsvReader does what an unbuffered reader does.  Model/Csv.v *)
From Verif Require Import Base.Bytes Model.BufferedSource Model.Lines Model.Csv Proof.SourceProof.

(** ** The unbuffered reader *)
Inductive pres := POk (fields : list (list Z)) (rest : list Z) (line last : Z) | PEnd (line : Z) | PFail (e : csv_error).
Inductive pstep := PDone (res : pres) | PScan (text : list Z) (done : list (list Z)) (field : list Z) (line last : Z).
Inductive pquoted := QDone (field rest : list Z) (line : Z) | QFail (e : csv_error).
Fixpoint after_lf (text : list Z) : list Z := match text with [] => [] | c :: t => if c =? LF then t else after_lf t end.
Section Pure.
Context (o : reader_options) (fails standalone : bool).
Definition too_long (field : list Z) : bool := c_max_length o <? zlen field.
Definition at_end {A} (f : csv_error -> A) (a : A) : A := if fails then f ESource else a.
Fixpoint p_quoted (text field : list Z) (line : Z) : pquoted :=
  match text with
  | [] => if too_long field then QFail EMaxLength else at_end QFail (QFail EMissingQuote)
  | c :: t =>
      match class_of o c with
      | kOther | kCr | kComment | kFieldSeparator => p_quoted t (field ++ [c]) line
      | kLf => p_quoted t (field ++ [c]) (line + 1)
      | kQuote =>
          if too_long field then QFail EMaxLength
          else match t with
               | [] => at_end QFail (QDone field [] line)
               | c2 :: t2 => if c2 =? quote_char o then p_quoted t2 (field ++ [c2]) line else QDone field t line
               end
      | kEscape =>
          if too_long field then QFail EMaxLength
          else match t with
               | [] => at_end QFail (QFail EMissingEscaped)
               | c2 :: t2 => p_quoted t2 (field ++ [c2]) line
               end
      end
  end.
Definition p_next_field (text : list Z) (done : list (list Z)) (line last : Z) : pstep :=
  if zlen done =? c_max_fields o then PDone (PFail EMaxFields) else PScan text done [] line last.
Definition p_next_record (text : list Z) (line : Z) : pstep :=
  if standalone then p_next_field text [] line line
  else match text with [] => PDone (at_end PFail (PEnd line)) | _ => p_next_field text [] line line end.
Definition p_done (text : list Z) (done : list (list Z)) (field : list Z) (line last : Z) : pstep :=
  PDone (if standalone then PFail EUnexpectedNewline else POk (done ++ [field]) text (line + 1) last).
Definition p_newline (text : list Z) (done : list (list Z)) (field : list Z) (line last : Z) : pstep :=
  if c_skip_empty o && (zlen done =? 0) && (zlen field =? 0) then p_next_record text (line + 1) else p_done text done field line last.
Definition p_after_cr (text : list Z) (k : list Z -> pstep) : pstep :=
  match text with
  | [] => PDone (at_end PFail (PFail EMissingLf))
  | c :: t => if c =? LF then k t else PDone (PFail EMissingLf)
  end.
Definition p_after_quoted (text : list Z) (done : list (list Z)) (field : list Z) (line last : Z) : pstep :=
  match text with
  | [] => PDone (at_end PFail (POk (done ++ [field]) [] (line + 1) last))
  | c :: t =>
      match class_of o c with
      | kOther | kComment | kEscape | kQuote => PDone (PFail EAfterQuote)
      | kFieldSeparator => p_next_field t (done ++ [field]) line last
      | kCr => p_after_cr t (fun t => p_done t done field line last)
      | kLf => p_done t done field line last
      end
  end.
Definition p_step (text : list Z) (done : list (list Z)) (field : list Z) (line last : Z) : pstep :=
  match text with
  | [] => PDone (if too_long field then PFail EMaxLength else at_end PFail (POk (done ++ [field]) [] (line + 1) last))
  | c :: t =>
      let checked (k : pstep) := if too_long field then PDone (PFail EMaxLength) else k in
      match class_of o c with
      | kOther => PScan t done (field ++ [c]) line last
      | kComment => if (zlen done =? 0) && (zlen field =? 0) then p_next_record (after_lf t) (line + 1) else PScan t done (field ++ [c]) line last
      | kCr => checked (p_after_cr t (fun t => p_newline t done field line last))
      | kLf => checked (p_newline t done field line last)
      | kFieldSeparator => checked (p_next_field t (done ++ [field]) line last)
      | kEscape => checked (match t with
                            | [] => PDone (at_end PFail (PFail EMissingEscaped))
                            | c2 :: t2 => PScan t2 done (field ++ [c2]) line last
                            end)
      | kQuote => checked (if negb (zlen field =? 0) then PDone (PFail EBeforeQuote)
                           else match p_quoted t [] line with
                                | QFail e => PDone (PFail e)
                                | QDone field t line => p_after_quoted t done field line last
                                end)
      end
  end.
Fixpoint p_loop (fuel : nat) (st : pstep) : option pres :=
  match st with
  | PDone res => Some res
  | PScan text done field line last =>
      match fuel with O => None | S fuel' => p_loop fuel' (p_step text done field line last) end
  end.
Definition p_record (text : list Z) (line : Z) : option pres := p_loop (S (length text)) (p_next_record text line).

(** *** Fields which are too long already *)
Lemma too_long_app field x : too_long field = true -> too_long (field ++ x) = true.
Proof. unfold too_long. rewrite zlen_app. pose proof (zlen_nonneg x). lia. Qed.
Lemma p_quoted_long n : forall text field line, (length text <= n)%nat -> too_long field = true -> p_quoted text field line = QFail EMaxLength.
Proof.
  induction n as [|n IH]; intros text field line L T; destruct text as [|c t]; cbn [p_quoted length] in *; rewrite ?T; try reflexivity; try lia.
  destruct (class_of o c); try reflexivity; (rewrite IH; [reflexivity|lia|apply too_long_app; exact T]).
Qed.
(** *** Progress *)
Lemma after_lf_length t : (length (after_lf t) <= length t)%nat.
Proof. induction t as [|c t IH]; cbn; [lia|]. destruct (c =? LF); cbn; lia. Qed.
Lemma p_quoted_length n : forall text field line field' rest line', (length text <= n)%nat -> p_quoted text field line = QDone field' rest line' -> (length rest < length text)%nat.
Proof.
  induction n as [|n IH]; intros text field line field' rest line' L; destruct text as [|c t]; cbn [p_quoted length] in *; try lia.
  - unfold at_end. destruct (too_long field), fails; discriminate.
  - unfold at_end. destruct (too_long field), fails; discriminate.
  - assert (H : forall t' f l, (length t' <= length t)%nat -> p_quoted t' f l = QDone field' rest line' -> (length rest < S (length t))%nat).
    { intros t' f l Lt' E. apply IH in E; lia. }
    destruct (class_of o c); try (apply H; lia); (destruct (too_long field); [discriminate|]); destruct t as [|c2 t2]; unfold at_end.
    + destruct fails; [discriminate|]. intro E. injection E as _ <- _. cbn. lia.
    + destruct (c2 =? quote_char o); [apply H; cbn; lia|]. intro E. injection E as _ <- _. cbn. lia.
    + destruct fails; discriminate.
    + apply H; cbn; lia.
Qed.
Definition step_length (st : pstep) : nat := match st with PDone _ => 0%nat | PScan text _ _ _ _ => S (length text) end.
Lemma p_next_field_length text done line last : (step_length (p_next_field text done line last) <= S (length text))%nat.
Proof. unfold p_next_field. destruct (_ =? _); cbn; lia. Qed.
Lemma p_next_record_length text line : (step_length (p_next_record text line) <= S (length text))%nat.
Proof. unfold p_next_record. destruct standalone; [apply p_next_field_length|]. destruct text; [cbn; lia|]. apply p_next_field_length. Qed.
Lemma p_newline_length text done field line last : (step_length (p_newline text done field line last) <= S (length text))%nat.
Proof. unfold p_newline. destruct (_ && _); [apply p_next_record_length|]. cbn. lia. Qed.
Lemma p_step_length text done field line last : (step_length (p_step text done field line last) <= length text)%nat.
Proof.
  unfold p_step. destruct text as [|c t]; cbn [step_length]; [lia|]. cbn [length].
  destruct (class_of o c).
  - cbn. lia.
  - destruct (too_long field); [cbn; lia|]. apply p_newline_length.
  - destruct (too_long field); [cbn; lia|]. unfold p_after_cr. destruct t as [|c2 t2]; [cbn; lia|]. destruct (c2 =? LF); [|cbn; lia].
    eapply Nat.le_trans; [apply p_newline_length|]. cbn. lia.
  - destruct (_ && _); [|cbn; lia]. eapply Nat.le_trans; [apply p_next_record_length|]. pose proof (after_lf_length t). lia.
  - destruct (too_long field); [cbn; lia|]. apply p_next_field_length.
  - destruct (too_long field); [cbn; lia|]. destruct (negb _); [cbn; lia|]. destruct (p_quoted t [] line) as [f t' l|e] eqn:Q; [|cbn; lia].
    apply (p_quoted_length (length t)) in Q; [|lia]. unfold p_after_quoted. destruct t' as [|c2 t2]; [cbn; lia|]. destruct (class_of o c2); try (cbn; lia).
    + unfold p_after_cr. destruct t2 as [|c3 t3]; [cbn; lia|]. destruct (c3 =? LF); cbn; lia.
    + eapply Nat.le_trans; [apply p_next_field_length|]. cbn in Q. lia.
  - destruct (too_long field); [cbn; lia|]. destruct t as [|c2 t2]; cbn; lia.
Qed.
Lemma p_loop_some fuel : forall st, (step_length st <= fuel)%nat -> exists res, p_loop fuel st = Some res.
Proof.
  induction fuel as [|fuel IH]; intros st L; destruct st as [res|text done field line last]; cbn [p_loop step_length] in *; [eauto|lia|eauto|].
  apply IH. pose proof (p_step_length text done field line last). lia.
Qed.
Lemma p_loop_more fuel : forall st res more, p_loop fuel st = Some res -> p_loop (fuel + more) st = Some res.
Proof.
  induction fuel as [|fuel IH]; intros st res more E; destruct st as [r|text done field line last]; cbn [p_loop Nat.add] in *; try discriminate; auto.
  destruct more; cbn; exact E.
Qed.
(** The length does not get smaller. *)
Lemma p_loop_long fuel : forall text done field line last, (length text < fuel)%nat -> field <> [] -> too_long field = true ->
  p_loop fuel (PScan text done field line last) = Some (PFail EMaxLength).
Proof.
  induction fuel as [|fuel IH]; intros text done field line last L N T; [lia|]. cbn [p_loop]. destruct text as [|c t]; cbn [p_step].
  - rewrite T. destruct fuel; reflexivity.
  - cbn [length] in L. rewrite ?T.
    assert (H : p_loop fuel (PScan t done (field ++ [c]) line last) = Some (PFail EMaxLength)).
    { apply IH; [lia|destruct field; discriminate|apply too_long_app; exact T]. }
    destruct (class_of o c); try exact H; try (destruct fuel; reflexivity).
    replace (zlen field =? 0) with false; [rewrite andb_false_r; exact H|]. destruct field; [congruence|]. rewrite zlen_cons. pose proof (zlen_nonneg field). lia.
Qed.
End Pure.

(** ** The buffered reader *)
Definition good (s : source) : Prop := wf s /\ (s_fails s = false -> s_ok s = true).
Lemma peek_ok r : good (r_src r) -> exists s, good s /\ s_rest s = s_rest (r_src r) /\ s_fails s = s_fails (r_src r) /\
  match s_rest (r_src r) with
  | [] => peek r = Some (if s_fails s then (false, None, fail false ESource (with_src r s)) else (true, None, with_src r s))
  | c :: _ => peek r = Some (true, Some c, with_src r s) /\ 1 <= s_avail s
  end.
Proof.
  intros [W G]. unfold peek. destruct (Pull 1 (r_src r)) as [pulled s] eqn:Pu. exists s. destruct pulled.
  - apply Pull_true in Pu; [|exact W|lia]. destruct Pu as ((R & F) & Ok & W' & Av & _ & Le). split; [split; [exact W'|intro X; rewrite Ok; apply G; congruence]|].
    split; [exact R|]. split; [exact F|]. destruct (s_rest (r_src r)) as [|c t]; [exfalso; change (zlen (@nil Z)) with 0 in Le; lia|].
    split; [|exact Av]. rewrite (cursor_at_eq 0 s W') by lia. rewrite R. reflexivity.
  - apply Pull_false in Pu; [|exact W|lia]. destruct Pu as ((R & F) & Ok & W' & Av & Le).
    split; [split; [exact W'|intro X; rewrite Ok, G by congruence; rewrite <- F, X; reflexivity]|]. split; [exact R|]. split; [exact F|].
    destruct (s_rest (r_src r)) as [|c t]; [|exfalso; rewrite zlen_cons in Le; pose proof (zlen_nonneg t); lia].
    rewrite Ok, F. destruct (s_fails (r_src r)); [rewrite andb_false_r; reflexivity|]. rewrite (G eq_refl). reflexivity.
Qed.
Lemma move_good n s : good s -> 0 <= n <= s_avail s -> exists s', move_cursor n s = Some s' /\ good s' /\ s_rest s' = zdrop n (s_rest s) /\ s_fails s' = s_fails s.
Proof.
  intros [W G] H. destruct (move_cursor_some n s H W) as (s' & E & R & _ & Ok & F & W'). exists s'. split; [exact E|]. split; [split; [exact W'|intro X; rewrite Ok; apply G; congruence]|]. auto.
Qed.
(** [at_pos s field ptr text fp]: the text from the current position, and the field with what is before the current position *)
Definition at_pos (s : source) (field : list Z) (ptr : Z) (text fp : list Z) : Prop :=
  0 <= ptr <= s_avail s /\ text = zdrop ptr (s_rest s) /\ fp = field ++ ztake ptr (s_rest s).
Lemma at_pos_0 s field text : wf s -> s_rest s = text -> at_pos s field 0 text field.
Proof. intros W E. unfold at_pos. unfold wf in W. rewrite zdrop_nonpos, ztake_nonpos, app_nil_r by lia. auto with zarith. Qed.
Lemma at_pos_next s field ptr c t fp : good s -> at_pos s field ptr (c :: t) fp -> ptr < s_avail s ->
  cursor_at ptr s = Some c /\ at_pos s field (ptr + 1) t (fp ++ [c]).
Proof.
  intros [W _] (H1 & H2 & H3) H. assert (B : byte_at ptr (s_rest s) = Some c).
  { unfold wf in W. replace ptr with (ptr + 0) by lia. rewrite <- byte_at_drop by lia. rewrite <- H2. reflexivity. }
  split; [rewrite cursor_at_eq by (auto; lia); exact B|]. pose proof (byte_at_split ptr (s_rest s) c ltac:(lia) B) as Sp. unfold wf in W.
  split; [lia|]. split.
  - replace (zdrop (ptr + 1) (s_rest s)) with (zdrop 1 (zdrop ptr (s_rest s))) by (rewrite zdrop_zdrop by lia; f_equal; lia). rewrite <- H2. reflexivity.
  - rewrite H3, <- app_assoc. f_equal. rewrite Sp at 2. assert (L : zlen (ztake ptr (s_rest s)) = ptr) by (rewrite zlen_ztake; lia).
    rewrite ztake_app_r by lia. rewrite L. replace (ptr + 1 - ptr) with 1 by lia. reflexivity.
Qed.
Lemma refill_ok o r field ptr text fp : good (r_src r) -> at_pos (r_src r) field ptr text fp ->
  (refill o r field ptr = Some (inl (false, field, fail true EMaxLength r)) /\ too_long o fp = true) \/
  (exists s, good s /\ s_fails s = s_fails (r_src r) /\
     ((text = [] /\ too_long o fp = false /\ s_rest s = [] /\
       refill o r field ptr = Some (inl (if s_fails s then (false, fp, fail false ESource (with_src r s)) else (true, fp, with_src r s)))) \/
      (exists c t field' ptr', text = c :: t /\ refill o r field ptr = Some (inr (field', with_src r s, ptr')) /\ at_pos s field' ptr' (c :: t) fp /\ ptr' < s_avail s /\
       exists before, s_rest (r_src r) = before ++ s_rest s))).
Proof.
  intros G P. pose proof P as P0. destruct G as [W G]. pose proof W as W0. destruct P as (H1 & H2 & H3). unfold refill. unfold wf in W. destruct (ptr =? s_avail (r_src r)) eqn:E.
  - apply Z.eqb_eq in E. subst ptr. assert (L : zlen fp = zlen field + s_avail (r_src r)) by (rewrite H3, zlen_app, zlen_ztake; lia).
    destruct (c_max_length o - zlen field <? s_avail (r_src r)) eqn:M; [left; split; [reflexivity|unfold too_long; lia]|]. right.
    destruct (move_good (s_avail (r_src r)) (r_src r) (conj W0 G) ltac:(lia)) as (s & -> & [W1 G1] & R1 & F1). unfold buffer. rewrite <- H3.
    destruct (Pull 1 s) as [pulled s'] eqn:Pu. exists s'. destruct pulled.
    + apply Pull_true in Pu; [|exact W1|lia]. destruct Pu as ((R & F) & Ok & W' & Av & _ & Le).
      split; [split; [exact W'|intro X; rewrite Ok; apply G1; congruence]|]. split; [congruence|]. right.
      rewrite R1, <- H2 in R. destruct text as [|c t]; [exfalso; rewrite R1, <- H2 in Le; change (zlen (@nil Z)) with 0 in Le; lia|].
      exists c, t, fp, 0. split; [reflexivity|]. split; [reflexivity|]. split; [apply at_pos_0; [exact W'|exact R]|]. split; [lia|].
      exists (ztake (s_avail (r_src r)) (s_rest (r_src r))). rewrite R, H2. symmetry. apply ztake_zdrop.
    + apply Pull_false in Pu; [|exact W1|lia]. destruct Pu as ((R & F) & Ok & W' & Av & Le).
      split; [split; [exact W'|intro X; rewrite Ok, G1 by congruence; rewrite <- F, X; reflexivity]|]. split; [congruence|]. left.
      rewrite R1, <- H2 in R. rewrite R1, <- H2 in Le. destruct text as [|c t]; [|exfalso; rewrite zlen_cons in Le; pose proof (zlen_nonneg t); lia].
      split; [reflexivity|]. split; [unfold too_long; lia|]. split; [exact R|]. rewrite Ok, F, F1. destruct (s_fails (r_src r)) eqn:Fa; [rewrite andb_false_r; reflexivity|].
      rewrite G1 by congruence. reflexivity.
  - right. exists (r_src r). split; [split; [exact W0|exact G]|]. split; [reflexivity|]. right. destruct text as [|c t].
    + exfalso. assert (zlen (zdrop ptr (s_rest (r_src r))) = 0) by (rewrite <- H2; reflexivity). rewrite zlen_zdrop in H. lia.
    + exists c, t, field, ptr. split; [reflexivity|]. split; [destruct r; reflexivity|]. split; [exact P0|]. split; [lia|]. exists []. reflexivity.
Qed.
Lemma flush_ok o r field ptr c t fp : good (r_src r) -> at_pos (r_src r) field ptr (c :: t) fp -> ptr < s_avail (r_src r) ->
  (too_long o fp = true /\ flush o r field ptr = Some None) \/
  (too_long o fp = false /\ exists s, good s /\ s_rest s = t /\ s_fails s = s_fails (r_src r) /\ flush o r field ptr = Some (Some (fp, with_src r s))).
Proof.
  intros G P Lt. destruct (at_pos_next _ _ _ _ _ _ G P Lt) as (_ & P'). destruct P as (H1 & H2 & H3). unfold flush. pose proof G as [W _]. unfold wf in W.
  assert (L : zlen fp = zlen field + ptr) by (rewrite H3, zlen_app, zlen_ztake; lia). unfold too_long.
  destruct (c_max_length o - zlen field <? ptr) eqn:M; [left; split; [lia|reflexivity]|]. right. split; [lia|].
  destruct (move_good (ptr + 1) (r_src r) G ltac:(lia)) as (s & -> & G1 & R1 & F1). exists s. split; [exact G1|]. split; [rewrite R1; symmetry; apply P'|]. split; [exact F1|].
  cbn [option_map]. rewrite <- H3. reflexivity.
Qed.
Lemma skip_line_loop_ok fuel : forall r ptr text fp, good (r_src r) -> at_pos (r_src r) [] ptr text fp -> (length text < fuel)%nat ->
  exists s, skip_line_loop fuel r ptr = Some (add_line (with_src r s)) /\ good s /\ s_rest s = after_lf text /\ s_fails s = s_fails (r_src r).
Proof.
  induction fuel as [|fuel IH]; intros r ptr text fp G P L; [lia|]. cbn [skip_line_loop].
  assert (C : (text = [] /\ exists s, (if ptr =? s_avail (r_src r) then
               option_map (fun s => let (pulled, s) := Pull 1 s in (pulled, s, 0)) (move_cursor (s_avail (r_src r)) (r_src r))
             else Some (true, r_src r, ptr)) = Some (false, s, 0) /\ good s /\ s_rest s = [] /\ s_fails s = s_fails (r_src r)) \/
     (exists c t s ptr' fp', text = c :: t /\ (if ptr =? s_avail (r_src r) then
               option_map (fun s => let (pulled, s) := Pull 1 s in (pulled, s, 0)) (move_cursor (s_avail (r_src r)) (r_src r))
             else Some (true, r_src r, ptr)) = Some (true, s, ptr') /\ good s /\ at_pos s [] ptr' (c :: t) fp' /\ ptr' < s_avail s /\ s_fails s = s_fails (r_src r))).
  { pose proof G as [W _]. unfold wf in W. pose proof P as (H1 & H2 & H3). destruct (ptr =? s_avail (r_src r)) eqn:E.
    - apply Z.eqb_eq in E. subst ptr. destruct (move_good (s_avail (r_src r)) (r_src r) G ltac:(lia)) as (s & -> & G1 & R1 & F1). rewrite <- H2 in R1. cbn [option_map].
      assert (Gs : r_src (with_src r s) = s) by reflexivity. destruct (peek_ok (with_src r s)) as (s' & G' & R' & F' & Q); [exact G1|]. rewrite Gs, R1 in *. unfold peek in Q. rewrite Gs in Q.
      destruct (Pull 1 s) as [pulled s2] eqn:Pu. assert (s' = s2). { destruct text; [destruct pulled, (s_fails s'); [destruct (cursor_at 0 s2)| destruct (cursor_at 0 s2) |destruct (s_ok s2)|destruct (s_ok s2)]; inversion Q; reflexivity|destruct Q as [Q _]; destruct pulled; [destruct (cursor_at 0 s2)|destruct (s_ok s2)]; inversion Q; reflexivity]. }
      subst s2. destruct text as [|c t].
      + left. split; [reflexivity|]. exists s'. split; [|split; [exact G'|split; [exact R'|congruence]]]. destruct pulled; [|reflexivity]. exfalso.
        apply Pull_true in Pu; [|apply G1|lia]. destruct Pu as (_ & _ & _ & _ & _ & Le). rewrite R1 in Le. change (zlen (@nil Z)) with 0 in Le. lia.
      + right. destruct Q as [_ Av]. exists c, t, s', 0, []. split; [reflexivity|]. split; [|split; [exact G'|split; [apply at_pos_0; [apply G'|exact R']|split; [lia|congruence]]]].
        destruct pulled; [reflexivity|]. exfalso. apply Pull_false in Pu; [|apply G1|lia]. destruct Pu as (_ & _ & _ & _ & Le). rewrite R1, zlen_cons in Le. pose proof (zlen_nonneg t). lia.
    - right. destruct text as [|c t]; [exfalso; assert (zlen (zdrop ptr (s_rest (r_src r))) = 0) by (rewrite <- H2; reflexivity); rewrite zlen_zdrop in H; lia|].
      exists c, t, (r_src r), ptr, fp. split; [reflexivity|]. split; [reflexivity|]. split; [exact G|]. split; [exact P|]. split; [lia|reflexivity]. }
  destruct C as [(-> & s & -> & Gs & Rs & Fs)|(c & t & s & ptr' & fp' & -> & -> & Gs & Ps & Lt & Fs)].
  - exists s. cbn [after_lf]. auto.
  - destruct (at_pos_next _ _ _ _ _ _ Gs Ps Lt) as (-> & P'). cbn [after_lf]. destruct (c =? LF) eqn:Ec.
    + destruct (move_good (ptr' + 1) s Gs) as (s2 & -> & G2 & R2 & F2); [destruct Ps; lia|]. exists s2. cbn [option_map]. split; [reflexivity|]. split; [exact G2|]. split; [rewrite R2; symmetry; apply P'|congruence].
    + cbn [length] in L. destruct (IH (with_src r s) (ptr' + 1) t _ Gs P' ltac:(lia)) as (s2 & -> & G2 & R2 & F2). exists s2. split; [reflexivity|]. cbn in F2. split; [exact G2|]. split; [exact R2|congruence].
Qed.
Lemma SkipLine_ok r : good (r_src r) ->
  exists s, SkipLine r = Some (add_line (with_src r s)) /\ good s /\ s_rest s = after_lf (s_rest (r_src r)) /\ s_fails s = s_fails (r_src r).
Proof. intro G. eapply skip_line_loop_ok; [exact G|apply at_pos_0; [apply G|reflexivity]|lia]. Qed.
