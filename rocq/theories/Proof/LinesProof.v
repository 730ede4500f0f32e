(** Proofs about ReadLine(): Model/Lines.v. *)
From Verif Require Import Base.Bytes Model.BufferedSource Model.Lines Spec.LineSpec Proof.SourceProof.

(** The length of the first line and of its terminator *)
Definition line_end (newline : ReadNewline) (text : list Z) : Z * Z :=
  match index_of_byte LF text with
  | None => (zlen text, 0)
  | Some i => match newline with
              | RLf => (i, 1)
              | RCrLfOrLf => if (0 <? i) && match byte_at (i - 1) text with Some c => c =? CR | None => false end then (i - 1, 2) else (i, 1)
              end
  end.
Lemma line_end_bounds newline text a b : line_end newline text = (a, b) -> 0 <= a /\ 0 <= b /\ a + b <= zlen text /\ (b = 0 -> a = zlen text) /\ (text <> [] -> 1 <= a + b).
Proof.
  unfold line_end. destruct (index_of_byte LF text) as [i|] eqn:E.
  - apply index_of_byte_some in E. destruct E as (E & _ & _). destruct newline; [|destruct (_ && _)%bool eqn:F]; intro H; injection H as <- <-; repeat split; lia.
  - intro H. injection H as <- <-. pose proof (zlen_nonneg text). repeat split; try lia. intro N. destruct text; [congruence|]. rewrite zlen_cons in *. pose proof (zlen_nonneg text). lia.
Qed.

Lemma not_ends_with_cr (line : list Z) : (forall l, line <> l ++ [CR]) <-> (zlen line = 0 \/ byte_at (zlen line - 1) line <> Some CR).
Proof.
  destruct line as [|x line] using rev_ind.
  - split; [left; reflexivity|]. intros _ l H. destruct l; discriminate.
  - rewrite zlen_app, zlen_cons. change (zlen (@nil Z)) with 0. pose proof (zlen_nonneg line).
    rewrite byte_at_app_r by lia. replace (zlen line + (1 + 0) - 1 - zlen line) with 0 by lia. cbn. split.
    + intro H1. right. intro H2. injection H2 as ->. exact (H1 line eq_refl).
    + intros [H1|H1]; [lia|]. intros l H2. apply app_inj_tail in H2. destruct H2 as [_ ->]. congruence.
Qed.
Lemma line_end_first newline text line terminator rest :
  first_line newline text line terminator rest <->
  text <> [] /\ exists a b, line_end newline text = (a, b) /\ line = ztake a text /\ terminator = ztake b (zdrop a text) /\ rest = zdrop (a + b) text.
Proof.
  split.
  - intro H. inversion H as [line' rest' N C | line' rest' Nl N | line' Ne N]; subst; clear H.
    + split; [destruct line; discriminate|]. exists (zlen line), 1.
      split; [|rewrite ztake_app_exact, zdrop_app_exact; split; [reflexivity|]; split; [reflexivity|];
               rewrite zdrop_app_r by lia; replace (zlen line + 1 - zlen line) with 1 by lia; reflexivity].
      unfold line_end. rewrite index_of_byte_app. apply index_of_byte_none in N. rewrite N. cbn. rewrite Z.add_0_r.
      destruct newline; [reflexivity|]. specialize (C eq_refl). apply not_ends_with_cr in C.
      destruct (0 <? zlen line) eqn:P; [|reflexivity]. destruct C as [C|C]; [lia|].
      rewrite byte_at_app_l by lia. destruct (byte_at _ line) as [c|]; cbn; [|reflexivity].
      destruct (c =? CR) eqn:F; [|reflexivity]. apply Z.eqb_eq in F. congruence.
    + split; [destruct line; discriminate|]. exists (zlen line), 2.
      split; [|rewrite ztake_app_exact, zdrop_app_exact; split; [reflexivity|]; split; [reflexivity|];
               rewrite zdrop_app_r by lia; replace (zlen line + 2 - zlen line) with 2 by lia; reflexivity].
      unfold line_end. rewrite index_of_byte_app. apply index_of_byte_none in N. rewrite N. cbn [app index_of_byte]. change (CR =? LF) with false. change (LF =? LF) with true. cbn [option_map]. replace (zlen line + (1 + 0)) with (zlen line + 1) by lia.
      pose proof (zlen_nonneg line). replace (0 <? zlen line + 1) with true by lia. replace (zlen line + 1 - 1) with (zlen line) by lia.
      rewrite byte_at_app_r by lia. rewrite Z.sub_diag. reflexivity.
    + split; [assumption|]. exists (zlen line), 0. unfold line_end. apply index_of_byte_none in N. rewrite N.
      split; [reflexivity|]. rewrite ztake_all by lia. rewrite !zdrop_all by lia. repeat split; reflexivity.
  - intros (Ne & a & b & E & -> & -> & ->). unfold line_end in E. destruct (index_of_byte LF text) as [i|] eqn:F.
    + apply index_of_byte_some in F. destruct F as (Hi & F & N). pose proof (byte_at_split i text LF ltac:(lia) F) as Sp.
      assert (L1 : first_line newline text (ztake i text) [LF] (zdrop (i + 1) text) \/ (newline = RCrLfOrLf /\ 0 < i /\ byte_at (i - 1) text = Some CR)).
      { destruct newline; [left | destruct (Z.eq_dec i 0); [left|]; [|destruct (byte_at (i - 1) text) as [c|] eqn:G; [destruct (Z.eq_dec c CR) as [->|Nc]|]]].
        - rewrite Sp at 1. apply (first_line_lf RLf (ztake i text) (zdrop (i + 1) text)); [assumption|discriminate].
        - rewrite Sp at 1. apply (first_line_lf RCrLfOrLf (ztake i text) (zdrop (i + 1) text)); [assumption|].
          intros _. apply not_ends_with_cr. left. rewrite zlen_ztake. lia.
        - right. repeat split; lia.
        - left. rewrite Sp at 1. apply (first_line_lf RCrLfOrLf (ztake i text) (zdrop (i + 1) text)); [assumption|].
          intros _. apply not_ends_with_cr. right. rewrite zlen_ztake. replace (Z.max 0 (Z.min i (zlen text))) with i by lia.
          rewrite byte_at_take by lia. congruence.
        - left. rewrite Sp at 1. apply (first_line_lf RCrLfOrLf (ztake i text) (zdrop (i + 1) text)); [assumption|].
          intros _. apply not_ends_with_cr. right. rewrite zlen_ztake. replace (Z.max 0 (Z.min i (zlen text))) with i by lia.
          rewrite byte_at_take by lia. congruence. }
      assert (D1 : ztake 1 (zdrop i text) = [LF]).
      { rewrite Sp at 1. rewrite zdrop_app_r; rewrite zlen_ztake; [|lia]. rewrite zdrop_nonpos by lia. reflexivity. }
      destruct newline.
      * injection E as <- <-. rewrite D1. destruct L1 as [L1|(L1 & _)]; [exact L1|discriminate].
      * destruct ((0 <? i) && _)%bool eqn:C; injection E as <- <-.
        -- destruct (byte_at (i - 1) text) as [c|] eqn:G; [|lia]. assert (c = CR) as -> by lia. assert (Hp : 0 < i) by lia. clear L1 C.
           pose proof (byte_at_split (i - 1) text CR ltac:(lia) G) as Sp1. replace (i - 1 + 1) with i in Sp1 by lia.
           assert (Sp2 : zdrop i text = LF :: zdrop (i + 1) text).
           { rewrite Sp at 1. rewrite zdrop_app_r; rewrite zlen_ztake; [|lia]. rewrite zdrop_nonpos by lia. reflexivity. }
           rewrite Sp2 in Sp1. replace (i - 1 + 2) with (i + 1) by lia.
           assert (D2 : ztake 2 (zdrop (i - 1) text) = [CR; LF]).
           { rewrite Sp1 at 1. rewrite zdrop_app_r; rewrite zlen_ztake; [|lia]. rewrite zdrop_nonpos by lia. reflexivity. }
           rewrite D2. rewrite Sp1 at 1. apply (first_line_crlf RCrLfOrLf (ztake (i - 1) text) (zdrop (i + 1) text)); [reflexivity|].
           apply (not_in_take LF (i - 1) i); [lia|assumption].
        -- rewrite D1. destruct L1 as [L1|(_ & L1 & L2)]; [exact L1|]. rewrite L2 in C. lia.
    + injection E as <- <-. rewrite ztake_all by lia. rewrite !zdrop_all by lia. apply first_line_last; [assumption|]. apply index_of_byte_none, F.
Qed.
(** There is exactly one first line. *)
Lemma first_line_exists newline text : text <> [] -> exists line terminator rest, first_line newline text line terminator rest.
Proof.
  intro Ne. destruct (line_end newline text) as [a b] eqn:E. exists (ztake a text), (ztake b (zdrop a text)), (zdrop (a + b) text).
  apply line_end_first. split; [exact Ne|]. exists a, b. auto.
Qed.

(** Reading in pieces *)
Lemma line_end_cut newline text len : 1 <= len <= zlen text -> ~ In LF (ztake len text) ->
  (newline = RCrLfOrLf -> byte_at (len - 1) text <> Some CR \/ byte_at len text <> Some LF) ->
  line_end newline text = (len + fst (line_end newline (zdrop len text)), snd (line_end newline (zdrop len text))).
Proof.
  intros H N C. unfold line_end. rewrite <- (ztake_zdrop len text) at 1. rewrite index_of_byte_app. apply index_of_byte_none in N. rewrite N.
  rewrite zlen_ztake. replace (Z.max 0 (Z.min len (zlen text))) with len by lia.
  destruct (index_of_byte LF (zdrop len text)) as [j|] eqn:F; cbn [option_map].
  - apply index_of_byte_some in F. destruct F as (Hj & F & _). destruct newline; cbn [fst snd]; [reflexivity|]. specialize (C eq_refl).
    replace (0 <? len + j) with true by lia. cbn [andb]. rewrite byte_at_drop in F by lia. destruct (0 <? j) eqn:P; cbn [andb].
    + rewrite byte_at_drop by lia. replace (len + (j - 1)) with (len + j - 1) by lia.
      destruct (match byte_at _ _ with Some _ => _ | None => _ end); cbn [fst snd]; f_equal; lia.
    + assert (j = 0) as -> by lia. rewrite Z.add_0_r in *. destruct C as [C|C]; [|congruence].
      destruct (byte_at (len - 1) text) as [c|]; [|cbn [fst snd]; f_equal; lia]. destruct (c =? CR) eqn:G; [|cbn [fst snd]; f_equal; lia].
      apply Z.eqb_eq in G. congruence.
  - cbn [fst snd]. rewrite zlen_zdrop. f_equal. lia.
Qed.

(** ** What a call of ReadLine() results in *)
Definition line_outcome (o : line_options) (s : source) (dest : list Z) (r : line_result) : Prop :=
  let (a, b) := line_end (o_newline o) (s_rest s) in
  let n := if o_keep o then a + b else a in
  wf (snd r) /\ s_fails (snd r) = s_fails s /\
  if o_max o <? n then
    fst r = (false, dest ++ ztake (o_max o) (s_rest s)) /\ s_ok (snd r) = false /\ s_rest (snd r) = zdrop (o_max o) (s_rest s)
  else
    fst r = (negb ((b =? 0) && s_fails s), dest ++ ztake n (s_rest s)) /\ s_ok (snd r) = negb ((b =? 0) && s_fails s) /\
    s_rest (snd r) = zdrop (a + b) (s_rest s).

Lemma ReadFlatAndSkip_ok append r w s dest : wf s -> 0 <= w <= r -> r <= s_avail s -> append = true \/ dest = [] ->
  exists s', ReadFlatAndSkip append r w s dest = Some (s', dest ++ ztake w (s_rest s)) /\
    s_rest s' = zdrop r (s_rest s) /\ s_avail s' = s_avail s - r /\ s_ok s' = s_ok s /\ s_fails s' = s_fails s /\ wf s'.
Proof.
  intros W H1 H2 A. unfold ReadFlatAndSkip. replace ((0 <=? w) && (w <=? r)) with true by lia.
  destruct (move_cursor_some r s ltac:(lia) W) as (s' & E & H). rewrite E. cbn [option_map]. exists s'. split; [|exact H].
  destruct append; [reflexivity|]. destruct A as [A | ->]; [discriminate|reflexivity].
Qed.
Lemma FailMax_ok append o s dest : wf s -> 0 <= o_max o <= s_avail s -> append = true \/ dest = [] ->
  o_max o < fst (line_end (o_newline o) (s_rest s)) + (if o_keep o then snd (line_end (o_newline o) (s_rest s)) else 0) ->
  exists r, FailMaxLineLengthExceeded append (o_max o) s dest = Some r /\ line_outcome o s dest r.
Proof.
  intros W H A L. unfold FailMaxLineLengthExceeded. destruct (ReadFlatAndSkip_ok append (o_max o) (o_max o) s dest W ltac:(lia) ltac:(lia) A) as (s' & E & H1 & H2 & H3 & H4 & H5).
  rewrite E. eexists. split; [reflexivity|]. unfold line_outcome. destruct (line_end _ _) as [a b]. cbn [fst snd] in *.
  replace (o_max o <? (if o_keep o then a + b else a)) with true by (destruct (o_keep o); lia). cbn. auto.
Qed.
Lemma FoundNewline_ok append o s dest a b : wf s -> s_ok s = true -> 0 <= o_max o -> append = true \/ dest = [] ->
  line_end (o_newline o) (s_rest s) = (a, b) -> 1 <= b -> 0 <= a -> a + b <= s_avail s ->
  exists r, FoundNewline append o s dest a b = Some r /\ line_outcome o s dest r.
Proof.
  intros W Ok M A E Hb Ha Hav. unfold FoundNewline. destruct (o_max o <? _) eqn:C.
  - apply FailMax_ok; auto; [destruct (o_keep o); lia|]. rewrite E. cbn. destruct (o_keep o); lia.
  - destruct (ReadFlatAndSkip_ok append (a + b) (if o_keep o then a + b else a) s dest W ltac:(destruct (o_keep o); lia) ltac:(lia) A) as (s' & F & H1 & H2 & H3 & H4 & H5).
    rewrite F. eexists. split; [reflexivity|]. unfold line_outcome. rewrite E, C. cbn [fst snd]. replace (b =? 0) with false by lia. cbn. split; [assumption|]. split; [assumption|].
    split; [reflexivity|]. split; [congruence|assumption].
Qed.
(** All of the remaining data is a line. *)
Lemma last_line_ok append o s s0 dest (r : source) : wf r -> line_end (o_newline o) (s_rest s0) = (zlen (s_rest s0), 0) ->
  s_rest s = s_rest s0 -> s_rest r = [] -> s_fails r = s_fails s0 -> s_ok r = negb (s_fails s0) -> zlen (s_rest s0) <= o_max o -> append = true \/ dest = [] ->
  line_outcome o s0 dest ((s_ok r, dest ++ s_rest s), r).
Proof.
  intros W E R R1 F Ok M A. unfold line_outcome. rewrite E. rewrite Z.add_0_r. replace (if o_keep o then zlen (s_rest s0) else zlen (s_rest s0)) with (zlen (s_rest s0)) by (destruct (o_keep o); reflexivity).
  replace (o_max o <? zlen (s_rest s0)) with false by lia. cbn [fst snd]. rewrite ztake_all by lia. rewrite zdrop_all by lia. cbn. rewrite Ok, R. auto 10.
Qed.

(** ** std::string, Chain, Cord *)
Definition continue_ok (newline : ReadNewline) (s : source) (len : Z) (s' : source) : Prop :=
  wf s' /\ s_ok s' = true /\ s_rest s' = s_rest s /\ s_fails s' = s_fails s /\ 1 <= len <= s_avail s' /\ ~ In LF (ztake len (s_rest s)) /\
  (newline = RCrLfOrLf -> byte_at (len - 1) (s_rest s) <> Some CR \/ byte_at len (s_rest s) <> Some LF).
Definition step_ok (o : line_options) (s : source) (dest : list Z) (st : step) : Prop :=
  match st with
  | Return r => line_outcome o s dest r
  | Continue len s' => continue_ok (o_newline o) s len s'
  end.
Lemma returned_ok o s dest x : (exists r, x = Some r /\ line_outcome o s dest r) -> exists st, returned x = Some st /\ step_ok o s dest st.
Proof. intros (r & -> & H). exists (Return r). split; [reflexivity|exact H]. Qed.
Lemma line_outcome_same o s s' dest r : same_but_buffer s s' -> line_outcome o s' dest r -> line_outcome o s dest r.
Proof. intros (E1 & E2). unfold line_outcome. rewrite E1, E2. tauto. Qed.
Lemma buffer_no_lf s : index_of_byte LF (buffer s) = None -> ~ In LF (ztake (s_avail s) (s_rest s)).
Proof. apply index_of_byte_none. Qed.

Lemma crlf_loop_ok o from s dest fuel : o_newline o = RCrLfOrLf -> 0 <= o_max o -> wf s -> s_ok s = true -> 1 <= s_avail s ->
  0 <= from <= s_avail s -> ~ In LF (ztake from (s_rest s)) -> (fuel = 1%nat /\ 2 <= from) \/ (2 <= fuel)%nat ->
  exists st, crlf_loop fuel o from s dest = Some st /\ step_ok o s dest st.
Proof.
  intros Nl M. revert from s. induction fuel as [|fuel IH]; intros from s W Ok Av Hf N Fu; [lia|]. cbn [crlf_loop].
  rewrite (memchr_from_eq from LF s W Hf N). destruct (index_of_byte LF (buffer s)) as [newline|] eqn:E.
  - destruct (index_buffer_some _ _ _ W E) as [E1 Hn]. destruct (0 <? newline) eqn:P.
    + rewrite cursor_at_eq by (try assumption; lia). unfold wf in W.
      destruct (byte_at_some (newline - 1) (s_rest s) ltac:(lia)) as [c B]. rewrite B.
      destruct (c =? CR) eqn:C; apply returned_ok, FoundNewline_ok; auto; try lia; rewrite Nl; unfold line_end; rewrite E1, P, B, C; reflexivity.
    + apply returned_ok, FoundNewline_ok; auto; try lia; rewrite Nl; unfold line_end; rewrite E1, P; reflexivity.
  - pose proof (buffer_no_lf s E) as Nb. rewrite cursor_at_eq by (try assumption; lia). pose proof W as W'. unfold wf in W'.
    destruct (byte_at_some (s_avail s - 1) (s_rest s) ltac:(lia)) as [c B]. rewrite B.
    destruct (c =? CR) eqn:C; cbn [negb].
    + apply Z.eqb_eq in C. subst c. destruct (0 <? s_avail s - 1) eqn:P.
      * eexists. split; [reflexivity|]. cbn. unfold continue_ok. repeat (split; [first [assumption | reflexivity | lia | eapply not_in_take; [|eassumption]; lia]|]).
        intros _. right. rewrite B. discriminate.
      * assert (A1 : s_avail s = 1) by lia. destruct (Pull 2 s) as [pulled s'] eqn:Pu. destruct pulled; cbn [negb].
        -- apply Pull_true in Pu; [|assumption|lia]. destruct Pu as (Sa & Ok' & W2 & Av' & _ & Len). pose proof Sa as (R & F).
           rewrite cursor_at_eq by (try assumption; lia). rewrite R. destruct (byte_at_some 1 (s_rest s) ltac:(lia)) as [d D]. rewrite D.
           rewrite A1 in B, Nb. replace (1 - 1) with 0 in B by lia.
           destruct (d =? LF) eqn:Dl.
           ++ apply Z.eqb_eq in Dl. subst d. apply returned_ok.
              assert (E1 : index_of_byte LF (s_rest s) = Some 1) by (apply index_of_byte_iff; [lia|]; split; [exact D|]; exact Nb).
              destruct (FoundNewline_ok true o s' dest 0 2 W2) as (r & G & Out); auto; try lia; try congruence.
              { rewrite Nl, R. unfold line_end. rewrite E1. cbn [Z.ltb Z.compare andb]. change (1 - 1) with 0. rewrite B. reflexivity. }
              exists r. split; [exact G|]. eapply line_outcome_same; [|exact Out]. exact Sa.
           ++ destruct (IH 2 s' W2) as (st & G & Out); try lia; try congruence.
              { rewrite R. change 2 with (1 + 1). rewrite ztake_split by lia. intro I2. apply in_app_or in I2. destruct I2 as [I2|I2]; [exact (Nb I2)|].
                replace (ztake 1 (zdrop 1 (s_rest s))) with [d] in I2; [destruct I2 as [->|[]]; discriminate|].
                pose proof (byte_at_split 1 (s_rest s) d ltac:(lia) D) as Sp. rewrite Sp. rewrite zdrop_app_r; rewrite zlen_ztake; [|lia]. rewrite zdrop_nonpos by lia. reflexivity. }
              exists st. split; [exact G|]. destruct st as [r|len s2]; cbn in *; [eapply line_outcome_same; [|exact Out]; exact Sa|].
              unfold continue_ok in *. rewrite R, F in Out. exact Out.
        -- apply Pull_false in Pu; [|assumption|lia]. destruct Pu as (Sa & Ok' & W2 & Av' & Len). pose proof Sa as (R & F).
           assert (L1 : zlen (s_rest s) = 1) by lia. assert (Le : line_end (o_newline o) (s_rest s) = (zlen (s_rest s), 0)).
           { unfold line_end. replace (index_of_byte LF (s_rest s)) with (@None Z); [reflexivity|]. symmetry. apply index_of_byte_none. rewrite ztake_all in Nb by lia. exact Nb. }
           destruct (o_max o <? 1) eqn:Mx.
           ++ apply returned_ok. destruct (FailMax_ok true o s' dest W2) as (r & G & Out); try lia; auto.
              { rewrite R, Le. cbn. destruct (o_keep o); lia. }
              exists r. split; [exact G|]. eapply line_outcome_same; [|exact Out]. exact Sa.
           ++ destruct (ReadFlatAndSkip_ok true 1 1 s' dest W2 ltac:(lia) ltac:(lia) ltac:(auto)) as (s2 & G & H1 & H2 & H3 & H4 & H5). rewrite G.
              eexists. split; [reflexivity|]. cbn [step_ok]. rewrite ztake_all by (rewrite R; lia). apply last_line_ok with (append := true); auto; try congruence; try lia.
              ** rewrite H1, R. apply zdrop_all. lia.
    + eexists. split; [reflexivity|]. cbn. unfold continue_ok. repeat (split; [first [assumption | reflexivity | lia]|]).
      intros _. left. rewrite B. intro H. injection H as ->. discriminate.
Qed.
Lemma lf_step_ok o s dest : o_newline o = RLf -> 0 <= o_max o -> wf s -> s_ok s = true -> 1 <= s_avail s ->
  exists st, lf_step o s dest = Some st /\ step_ok o s dest st.
Proof.
  intros Nl M W Ok Av. unfold lf_step. rewrite (memchr_from_eq 0 LF s W) by (try lia; rewrite ztake_nonpos by lia; intros []).
  destruct (index_of_byte LF (buffer s)) as [newline|] eqn:E.
  - destruct (index_buffer_some _ _ _ W E) as [E1 Hn]. apply returned_ok, FoundNewline_ok; auto; try lia. rewrite Nl. unfold line_end. rewrite E1. reflexivity.
  - pose proof (buffer_no_lf s E) as Nb. eexists. split; [reflexivity|]. cbn. unfold continue_ok. repeat (split; [first [assumption | reflexivity | lia]|]). congruence.
Qed.
(** The rest of the line was read after [len] bytes of it. *)
Lemma line_outcome_piece o s s' dest len r : 0 <= len <= o_max o -> 0 <= o_max o ->
  line_end (o_newline o) (s_rest s) = (len + fst (line_end (o_newline o) (zdrop len (s_rest s))), snd (line_end (o_newline o) (zdrop len (s_rest s)))) ->
  s_rest s' = zdrop len (s_rest s) -> s_fails s' = s_fails s ->
  line_outcome {| o_newline := o_newline o; o_keep := o_keep o; o_max := o_max o - len |} s' (dest ++ ztake len (s_rest s)) r -> line_outcome o s dest r.
Proof.
  intros Hl M Cut R F Out. unfold line_outcome in *. cbn in Out. rewrite R, F in Out. rewrite Cut. clear Cut R F.
  destruct (line_end (o_newline o) (zdrop len (s_rest s))) as [a b] eqn:E. apply line_end_bounds in E. destruct E as (Ba & Bb & _). cbn [fst snd].
  replace (if o_keep o then len + a + b else len + a) with (len + (if o_keep o then a + b else a)) by (destruct (o_keep o); ring).
  assert (Hn : 0 <= (if o_keep o then a + b else a)) by (destruct (o_keep o); lia). revert Out. generalize (if o_keep o then a + b else a) Hn. clear Hn. intros n Hn Out.
  destruct Out as (O1 & O2 & O3). split; [exact O1|]. split; [exact O2|].
  replace (o_max o <? len + n) with (o_max o - len <? n) by (clear - Hn; lia).
  destruct (o_max o - len <? n) eqn:C; destruct O3 as (-> & -> & ->).
  - rewrite <- app_assoc, <- ztake_split, zdrop_zdrop by (clear - Hl; lia).
    replace (len + (o_max o - len)) with (o_max o) by ring. replace (o_max o - len + len) with (o_max o) by ring. auto.
  - rewrite <- app_assoc, <- ztake_split, zdrop_zdrop by (clear - Hl Hn Ba Bb; lia). replace (len + a + b) with (a + b + len) by ring. auto.
Qed.
Lemma line_loop_ok fuel o s dest : 0 <= o_max o -> wf s -> s_ok s = true -> 1 <= s_avail s -> zlen (s_rest s) < Z.of_nat fuel ->
  exists r, line_loop fuel o s dest = Some r /\ line_outcome o s dest r.
Proof.
  revert o s dest. induction fuel as [|fuel IH]; intros o s dest M W Ok Av Fu; [unfold wf in W; lia|]. cbn [line_loop].
  assert (St : exists st, (match o_newline o with RLf => lf_step o s dest | RCrLfOrLf => crlf_loop 2 o 0 s dest end) = Some st /\ step_ok o s dest st).
  { destruct (o_newline o) eqn:Nl; [apply lf_step_ok; assumption|]. apply crlf_loop_ok; auto; try lia; rewrite ztake_nonpos by lia; intros []. }
  destruct St as (st & -> & H). destruct st as [r|len s']; cbn in H; [exists r; auto|].
  destruct H as (W' & Ok' & R & F & Len & N & C). pose proof W' as W2. unfold wf in W2. rewrite R in W2.
  pose proof (line_end_cut (o_newline o) (s_rest s) len ltac:(lia) N C) as Cut.
  destruct (line_end (o_newline o) (zdrop len (s_rest s))) as [a b] eqn:E'. cbn [fst snd] in Cut.
  pose proof (line_end_bounds _ _ _ _ E') as (Ba & Bb & Bc & Bd & _). rewrite zlen_zdrop in Bc, Bd.
  destruct (o_max o <? len) eqn:Mx.
  - destruct (FailMax_ok true o s' dest W') as (r & G & Out); try lia; auto.
    { rewrite R, Cut. cbn. destruct (o_keep o); lia. }
    exists r. split; [exact G|]. eapply line_outcome_same; [|exact Out]. split; assumption.
  - destruct (ReadFlatAndSkip_ok true len len s' dest W' ltac:(lia) ltac:(lia) ltac:(auto)) as (s2 & G & H1 & H2 & H3 & H4 & H5). rewrite G.
    rewrite R in H1. rewrite R. destruct (Pull 1 s2) as [pulled s3] eqn:Pu. destruct pulled.
    + apply Pull_true in Pu; [|assumption|lia]. destruct Pu as ((R3 & F3) & Ok3 & W3 & Av3 & _ & Le3).
      destruct (IH {| o_newline := o_newline o; o_keep := o_keep o; o_max := o_max o - len |} s3 (dest ++ ztake len (s_rest s))) as (r & Gr & Out); auto; cbn; try lia; try congruence.
      { rewrite R3, H1, zlen_zdrop. lia. }
      exists r. split; [exact Gr|]. eapply line_outcome_piece with (len := len) (s' := s3); [clear - Len Mx; lia | exact M | rewrite E'; exact Cut | congruence | congruence | exact Out].
    + apply Pull_false in Pu; [|assumption|lia]. destruct Pu as ((R3 & F3) & Ok3 & W3 & Av3 & Le3). rewrite H1, zlen_zdrop in Le3.
      assert (Ll : len = zlen (s_rest s)) by lia. eexists. split; [reflexivity|]. rewrite ztake_all by lia.
      assert (R3' : s_rest s3 = []) by (rewrite R3, H1; apply zdrop_all; lia).
      apply last_line_ok with (append := true); auto; try congruence; try lia.
      * rewrite Cut. f_equal; [|destruct (Z.eq_dec b 0); lia]. lia.
Qed.
Lemma ReadLine_ok o s : 0 <= o_max o -> readable s ->
  exists r, ReadLine o s = Some r /\
    (s_rest s = [] -> fst r = (false, []) /\ s_ok (snd r) = negb (s_fails s) /\ s_rest (snd r) = [] /\ wf (snd r) /\ s_fails (snd r) = s_fails s) /\
    (s_rest s <> [] -> line_outcome o s [] r).
Proof.
  intros M [W Ok]. unfold ReadLine. destruct (Pull 1 s) as [pulled s'] eqn:Pu. destruct pulled; cbn [negb].
  - apply Pull_true in Pu; [|assumption|lia]. destruct Pu as (Sa & Ok' & W' & Av & _ & Le). pose proof Sa as (R & F).
    destruct (line_loop_ok (S (length (s_rest s'))) o s' []) as (r & G & Out); auto; try lia; try congruence; [unfold zlen; lia|].
    exists r. split; [exact G|]. split; [intro E; rewrite E in Le; change (zlen (@nil Z)) with 0 in Le; lia|]. intros _. eapply line_outcome_same; [|exact Out]. exact Sa.
  - apply Pull_false in Pu; [|assumption|lia]. destruct Pu as (Sa & Ok' & W' & Av & Le). pose proof Sa as (R & F).
    assert (E : s_rest s = []) by (destruct (s_rest s) as [|x l]; [reflexivity | rewrite zlen_cons in Le; pose proof (zlen_nonneg l); lia]).
    eexists. split; [reflexivity|]. split; [|congruence]. intros _. cbn. rewrite Ok', Ok, R. auto.
Qed.

(** ** string_view *)
Definition view_continue_ok (newline : ReadNewline) (s : source) (len : Z) (s' : source) : Prop :=
  wf s' /\ s_ok s' = true /\ s_rest s' = s_rest s /\ s_fails s' = s_fails s /\ len = s_avail s' /\ s_avail s <= s_avail s' /\ ~ In LF (ztake len (s_rest s)) /\
  (newline = RCrLfOrLf -> byte_at (len - 1) (s_rest s) <> Some CR).
Definition view_step_ok (o : line_options) (s : source) (st : step) : Prop :=
  match st with Return r => line_outcome o s [] r | Continue len s' => view_continue_ok (o_newline o) s len s' end.
Lemma view_returned_ok o s x : (exists r, x = Some r /\ line_outcome o s [] r) -> exists st, returned x = Some st /\ view_step_ok o s st.
Proof. intros (r & -> & H). exists (Return r). split; [reflexivity|exact H]. Qed.
(** A line is at least as long as what precedes the first LF (and CR before it). *)
Lemma line_end_at_least newline text len : 0 <= len <= zlen text -> ~ In LF (ztake len text) ->
  len - 1 <= fst (line_end newline text) /\ ((newline = RCrLfOrLf -> byte_at (len - 1) text <> Some CR) -> len <= fst (line_end newline text)) /\
  (len <= fst (line_end newline text) + snd (line_end newline text)).
Proof.
  intros H N. unfold line_end. destruct (index_of_byte LF text) as [i|] eqn:E.
  - apply index_of_byte_some in E. destruct E as (Hi & B & _).
    assert (Le : len <= i).
    { destruct (Z.le_gt_cases len i); [assumption|]. exfalso. apply N. apply byte_at_in with i. rewrite byte_at_take by lia. exact B. }
    destruct newline; cbn [fst snd]; [repeat split; lia|].
    destruct (_ && _)%bool eqn:C; cbn [fst snd]; [|repeat split; lia]. split; [lia|]. split; [|lia].
    intro X. specialize (X eq_refl). destruct (Z.eq_dec len i) as [->|]; [|lia]. destruct (byte_at (i - 1) text) as [c|]; [|lia].
    assert (c = CR) by lia. congruence.
  - cbn. repeat split; lia.
Qed.

Lemma view_crlf_loop_ok o fuel len s : o_newline o = RCrLfOrLf -> 0 <= o_max o -> wf s -> s_ok s = true -> 1 <= s_avail s ->
  0 <= len <= s_avail s -> ~ In LF (ztake len (s_rest s)) -> zlen (s_rest s) - len < Z.of_nat fuel ->
  exists st, view_crlf_loop fuel o len s = Some st /\ view_step_ok o s st.
Proof.
  intros Nl M. revert len s. induction fuel as [|fuel IH]; intros len s W Ok Av Hl N Fu; [unfold wf in W; lia|]. cbn [view_crlf_loop].
  rewrite (memchr_from_eq len LF s W Hl N). destruct (index_of_byte LF (buffer s)) as [newline|] eqn:E.
  - destruct (index_buffer_some _ _ _ W E) as [E1 Hn]. destruct (0 <? newline) eqn:P.
    + rewrite cursor_at_eq by (try assumption; lia). unfold wf in W.
      destruct (byte_at_some (newline - 1) (s_rest s) ltac:(lia)) as [c B]. rewrite B.
      destruct (c =? CR) eqn:C; apply view_returned_ok, FoundNewline_ok; auto; try lia; rewrite Nl; unfold line_end; rewrite E1, P, B, C; reflexivity.
    + apply view_returned_ok, FoundNewline_ok; auto; try lia; rewrite Nl; unfold line_end; rewrite E1, P; reflexivity.
  - pose proof (buffer_no_lf s E) as Nb. rewrite cursor_at_eq by (try assumption; lia). pose proof W as W'. unfold wf in W'.
    destruct (byte_at_some (s_avail s - 1) (s_rest s) ltac:(lia)) as [c B]. rewrite B.
    destruct (c =? CR) eqn:C; cbn [negb].
    + apply Z.eqb_eq in C. subst c. destruct (line_end_at_least (o_newline o) (s_rest s) (s_avail s) ltac:(lia) Nb) as (L1 & _ & L3).
      destruct (o_max o <? s_avail s - 1) eqn:Mx.
      * apply view_returned_ok. apply FailMax_ok; auto; try lia.
        destruct (line_end (o_newline o) (s_rest s)) as [a b] eqn:Le. cbn [fst snd] in *. apply line_end_bounds in Le. destruct (o_keep o); lia.
      * destruct (Pull (s_avail s - 1 + 2) s) as [pulled s'] eqn:Pu. destruct pulled; cbn [negb].
        -- apply Pull_true in Pu; [|assumption|lia]. destruct Pu as (Sa & Ok' & W2 & Av' & _ & Len). pose proof Sa as (R & F).
           rewrite cursor_at_eq by (try assumption; lia). rewrite R. replace (s_avail s - 1 + 1) with (s_avail s) by lia.
           destruct (byte_at_some (s_avail s) (s_rest s) ltac:(lia)) as [d D]. rewrite D.
           destruct (d =? LF) eqn:Dl.
           ++ apply Z.eqb_eq in Dl. subst d. apply view_returned_ok.
              assert (E1 : index_of_byte LF (s_rest s) = Some (s_avail s)) by (apply index_of_byte_iff; [lia|]; split; [exact D|]; exact Nb).
              destruct (FoundNewline_ok false o s' [] (s_avail s - 1) 2 W2) as (r & G & Out); auto; try lia; try congruence.
              { rewrite Nl, R. unfold line_end. rewrite E1. replace (0 <? s_avail s) with true by lia. rewrite B. reflexivity. }
              exists r. split; [exact G|]. eapply line_outcome_same; [|exact Out]. exact Sa.
           ++ destruct (IH (s_avail s - 1 + 2) s' W2) as (st & G & Out); try lia; try congruence.
              { rewrite R. replace (s_avail s - 1 + 2) with (s_avail s + 1) by lia. rewrite ztake_split by lia. intro I2. apply in_app_or in I2. destruct I2 as [I2|I2]; [exact (Nb I2)|].
                replace (ztake 1 (zdrop (s_avail s) (s_rest s))) with [d] in I2; [destruct I2 as [->|[]]; discriminate|].
                pose proof (byte_at_split (s_avail s) (s_rest s) d ltac:(lia) D) as Sp. rewrite Sp. rewrite zdrop_app_r; rewrite zlen_ztake; [|lia]. rewrite zdrop_nonpos by lia. reflexivity. }
              { rewrite R. lia. }
              exists st. split; [exact G|]. destruct st as [r|len' s2]; cbn in *; [eapply line_outcome_same; [|exact Out]; exact Sa|].
              unfold view_continue_ok in *. rewrite R, F in Out. intuition lia.
        -- apply Pull_false in Pu; [|assumption|lia]. destruct Pu as (Sa & Ok' & W2 & Av' & Len). pose proof Sa as (R & F).
           assert (L0 : zlen (s_rest s) = s_avail s) by lia. assert (Le : line_end (o_newline o) (s_rest s) = (zlen (s_rest s), 0)).
           { unfold line_end. replace (index_of_byte LF (s_rest s)) with (@None Z); [reflexivity|]. symmetry. apply index_of_byte_none. rewrite ztake_all in Nb by lia. exact Nb. }
           destruct (o_max o <? s_avail s') eqn:Mx'.
           ++ apply view_returned_ok. destruct (FailMax_ok false o s' [] W2) as (r & G & Out); try lia; auto.
              { rewrite R, Le. cbn. destruct (o_keep o); lia. }
              exists r. split; [exact G|]. eapply line_outcome_same; [|exact Out]. exact Sa.
           ++ pose proof W2 as W3. unfold wf in W3. destruct (ReadFlatAndSkip_ok false (s_avail s') (s_avail s') s' [] W2 ltac:(lia) ltac:(lia) ltac:(auto)) as (s2 & G & H1 & H2 & H3 & H4 & H5). rewrite G.
              eexists. split; [reflexivity|]. cbn [view_step_ok]. rewrite ztake_all by (rewrite R; lia). apply last_line_ok with (append := false); auto; try congruence; try lia.
              ** rewrite H1, R. apply zdrop_all. lia.
    + eexists. split; [reflexivity|]. cbn. unfold view_continue_ok. repeat (split; [first [assumption | reflexivity | lia]|]).
      intros _. rewrite B. intro H. injection H as ->. discriminate.
Qed.
Lemma view_lf_step_ok o len s : o_newline o = RLf -> 0 <= o_max o -> wf s -> s_ok s = true -> 1 <= s_avail s -> 0 <= len <= s_avail s -> ~ In LF (ztake len (s_rest s)) ->
  exists st, view_lf_step o len s = Some st /\ view_step_ok o s st.
Proof.
  intros Nl M W Ok Av Hl N. unfold view_lf_step. rewrite (memchr_from_eq len LF s W Hl N).
  destruct (index_of_byte LF (buffer s)) as [newline|] eqn:E.
  - destruct (index_buffer_some _ _ _ W E) as [E1 Hn]. apply view_returned_ok, FoundNewline_ok; auto; try lia. rewrite Nl. unfold line_end. rewrite E1. reflexivity.
  - pose proof (buffer_no_lf s E) as Nb. eexists. split; [reflexivity|]. cbn. unfold view_continue_ok. repeat (split; [first [assumption | reflexivity | lia]|]). congruence.
Qed.
Lemma view_loop_ok fuel o len s : 0 <= o_max o -> wf s -> s_ok s = true -> 0 <= len < s_avail s -> ~ In LF (ztake len (s_rest s)) -> zlen (s_rest s) - len < Z.of_nat fuel ->
  exists r, view_loop fuel o len s = Some r /\ line_outcome o s [] r.
Proof.
  intro M. revert len s. induction fuel as [|fuel IH]; intros len s W Ok Hl N Fu; [unfold wf in W; lia|]. cbn [view_loop].
  assert (St : exists st, (match o_newline o with RLf => view_lf_step o len s | RCrLfOrLf => view_crlf_loop (S (length (s_rest s))) o len s end) = Some st /\ view_step_ok o s st).
  { destruct (o_newline o) eqn:Nl; [apply view_lf_step_ok; auto; lia|]. apply view_crlf_loop_ok; auto; try lia. unfold zlen. lia. }
  destruct St as (st & -> & H). destruct st as [r|len' s']; cbn in H; [exists r; auto|].
  destruct H as (W' & Ok' & R & F & -> & Av & N' & C). pose proof W' as W2. unfold wf in W2. rewrite R in W2.
  destruct (line_end_at_least (o_newline o) (s_rest s) (s_avail s') ltac:(lia) N') as (L1 & L2 & L3). specialize (L2 C).
  destruct (line_end (o_newline o) (s_rest s)) as [a b] eqn:Le. pose proof (line_end_bounds _ _ _ _ Le) as Bo. cbn [fst snd] in *.
  destruct (o_max o <? s_avail s') eqn:Mx.
  - destruct (FailMax_ok false o s' [] W') as (r & G & Out); try lia; auto.
    { rewrite R, Le. cbn. destruct (o_keep o); lia. }
    exists r. split; [exact G|]. eapply line_outcome_same; [|exact Out]. split; assumption.
  - destruct (Pull (s_avail s' + 1) s') as [pulled s3] eqn:Pu. destruct pulled.
    + apply Pull_true in Pu; [|assumption|lia]. destruct Pu as (Sa & Ok3 & W3 & Av3 & _ & Le3). pose proof Sa as (R3 & F3).
      destruct (IH (s_avail s') s3) as (r & Gr & Out); auto; try lia; try congruence.
      { rewrite R3, R. lia. }
      exists r. split; [exact Gr|]. eapply line_outcome_same; [|exact Out]. split; congruence.
    + apply Pull_false in Pu; [|assumption|lia]. destruct Pu as (Sa & Ok3 & W3 & Av3 & Le3). pose proof Sa as (R3 & F3). rewrite R in *.
      pose proof W3 as W4. unfold wf in W4. destruct (ReadFlatAndSkip_ok false (s_avail s3) (s_avail s3) s3 [] W3 ltac:(lia) ltac:(lia) ltac:(auto)) as (s2 & G & H1 & H2 & H3 & H4 & H5). rewrite G.
      eexists. split; [reflexivity|]. rewrite ztake_all by (rewrite R3; lia).
      apply last_line_ok with (append := false); auto; try congruence; try lia.
      * rewrite Le. f_equal; lia.
      * rewrite H1, R3. apply zdrop_all. lia.
Qed.
Lemma ReadLine_view_ok o s : 0 <= o_max o -> readable s ->
  exists r, ReadLine_view o s = Some r /\
    (s_rest s = [] -> fst r = (false, []) /\ s_ok (snd r) = negb (s_fails s) /\ s_rest (snd r) = [] /\ wf (snd r) /\ s_fails (snd r) = s_fails s) /\
    (s_rest s <> [] -> line_outcome o s [] r).
Proof.
  intros M [W Ok]. unfold ReadLine_view. destruct (Pull 1 s) as [pulled s'] eqn:Pu. destruct pulled; cbn [negb].
  - apply Pull_true in Pu; [|assumption|lia]. destruct Pu as (Sa & Ok' & W' & Av & _ & Le). pose proof Sa as (R & F).
    destruct (view_loop_ok (S (length (s_rest s'))) o 0 s') as (r & G & Out); auto; try lia; try congruence; [unfold zlen; lia|].
    exists r. split; [exact G|]. split; [intro E; rewrite E in Le; change (zlen (@nil Z)) with 0 in Le; lia|]. intros _. eapply line_outcome_same; [|exact Out]. exact Sa.
  - apply Pull_false in Pu; [|assumption|lia]. destruct Pu as (Sa & Ok' & W' & Av & Le). pose proof Sa as (R & F).
    assert (E : s_rest s = []) by (destruct (s_rest s) as [|x l]; [reflexivity | rewrite zlen_cons in Le; pose proof (zlen_nonneg l); lia]).
    eexists. split; [reflexivity|]. split; [|congruence]. intros _. cbn. rewrite Ok', Ok, R. auto.
Qed.
