(** C36: lines. *)
From Verif Require Import Base.Bytes Model.BufferedSource Model.Lines Spec.LineSpec Proof.SourceProof Proof.LinesProof Proof.TextProof.

(** Both kinds of ReadLine(): to a std::string, Chain, or Cord, and to a string_view. *)
Definition reading (read : line_options -> source -> option line_result) : Prop := read = ReadLine \/ read = ReadLine_view.
Lemma reading_ok read o : reading read -> 0 <= o_max o -> forall s, readable s ->
    exists r, read o s = Some r /\
    (s_rest s = [] -> fst r = (false, []) /\ s_ok (snd r) = negb (s_fails s) /\ s_rest (snd r) = [] /\ wf (snd r) /\ s_fails (snd r) = s_fails s) /\
    (s_rest s <> [] -> line_outcome o s [] r).
Proof. intros [-> | ->] M s R; [apply ReadLine_ok | apply ReadLine_view_ok]; assumption. Qed.
(** What is stored in [dest] for a line *)
Definition stored (o : line_options) (line terminator : list Z) : list Z := if o_keep o then line ++ terminator else line.

(** Every non-empty text has exactly one first line, and every text splits in exactly one way into lines, whose concatenation
    with their terminators is the text. *)
Theorem C36_split newline text :
  (text <> [] -> exists line terminator rest, first_line newline text line terminator rest /\
     forall line' terminator' rest', first_line newline text line' terminator' rest' -> line' = line /\ terminator' = terminator /\ rest' = rest) /\
  exists lines, all_lines newline text lines /\ concat (map (fun l => fst l ++ snd l) lines) = text /\
    forall lines', all_lines newline text lines' -> lines' = lines.
Proof.
  split.
  - intro Ne. destruct (first_line_exists newline text Ne) as (l & t & r & F). exists l, t, r. split; [exact F|]. intros l' t' r' F'.
    destruct (first_line_unique _ _ _ _ _ _ _ _ F' F) as (-> & -> & ->). auto.
  - destruct (all_lines_exist newline text) as [lines L]. exists lines. split; [exact L|]. split; [symmetry; eapply all_lines_app; exact L|]. intros. eapply all_lines_unique; eassumption.
Qed.
(** However the data is buffered, ReadLine() gets the first line and moves past its terminator.  It returns [false], with the Reader
    not ok, if the source fails before the end of the line is known (then the partial line is stored), or if the line is longer than
    the limit (then its beginning is stored). *)
Theorem C36_read_line read o s line terminator rest : reading read -> 0 <= o_max o -> readable s ->
  first_line (o_newline o) (s_rest s) line terminator rest ->
  (zlen (stored o line terminator) <= o_max o -> terminator <> [] \/ s_fails s = false ->
     exists s', read o s = Some ((true, stored o line terminator), s') /\ readable s' /\ s_rest s' = rest /\ s_fails s' = s_fails s) /\
  (zlen (stored o line terminator) <= o_max o -> terminator = [] -> s_fails s = true ->
     exists s', read o s = Some ((false, stored o line terminator), s') /\ s_ok s' = false) /\
  (o_max o < zlen (stored o line terminator) ->
     exists s', read o s = Some ((false, ztake (o_max o) (stored o line terminator)), s') /\ s_ok s' = false).
Proof.
  intros Re M R F. destruct (read_one o (read o) (reading_ok read o Re M) s line terminator rest R F) as (s' & E & Ok & Rest & W & Fl).
  change (content o (line, terminator)) with (stored o line terminator) in *. repeat split.
  - intros Mx C. exists s'. replace (o_max o <? _) with false in E by lia. replace (_ <=? o_max o) with true in Ok by lia.
    assert (Ok' : s_ok s' = true) by (rewrite Ok; destruct terminator; [destruct C as [C | ->]; [congruence | reflexivity] | reflexivity]). rewrite Ok' in E.
    split; [exact E|]. split; [split; assumption|]. auto.
  - intros Mx -> Fa. exists s'. replace (o_max o <? _) with false in E by lia. replace (_ <=? o_max o) with true in Ok by lia. rewrite Fa in Ok. cbn in Ok. rewrite Ok in E. auto.
  - intros Mx. exists s'. replace (o_max o <? _) with true in E by lia. replace (_ <=? o_max o) with false in Ok by lia. auto.
Qed.
(** At the end ReadLine() returns [false]; the Reader stays ok unless the source failed. *)
Theorem C36_read_line_end read o s : reading read -> 0 <= o_max o -> readable s -> s_rest s = [] ->
  exists s', read o s = Some ((false, []), s') /\ s_ok s' = negb (s_fails s).
Proof.
  intros Re M R E. destruct (reading_ok read o Re M s R) as (r & Er & H & _). destruct (H E) as (H1 & H2 & _). exists (snd r). rewrite Er. destruct r as [r1 r2]. cbn in *. subst r1. auto.
Qed.
(** Reading until [false] is returned gives all lines of the text in order; if the source fails, all lines which are known to be
    complete, and the failure is reported. *)
Theorem C36_read_all read o text fails pulls lines fuel : reading read -> all_lines (o_newline o) text lines ->
  Forall (fun l => zlen (stored o (fst l) (snd l)) <= o_max o) lines -> 0 <= o_max o -> (length lines < fuel)%nat ->
  exists s', read_lines (read o) fuel (source_of text fails pulls) =
      Some (map (fun l => stored o (fst l) (snd l)) (filter (fun l => match snd l with [] => negb fails | _ => true end) lines), s') /\
    s_rest s' = [] /\ s_ok s' = negb fails.
Proof.
  intros Re L Fo M Fu. destruct (read_all o (read o) (reading_ok read o Re M) lines text L Fo (source_of text fails pulls) fuel) as (s' & E & H); auto.
  - split; [|reflexivity]. cbn. pose proof (zlen_nonneg text). lia.
  - exists s'. split; [exact E|exact H].
Qed.
(** With keep_newline nothing is lost. *)
Theorem C36_keep_newline read o text pulls lines fuel : reading read -> all_lines (o_newline o) text lines -> o_keep o = true -> zlen text <= o_max o -> (length lines < fuel)%nat ->
  exists ls s', read_lines (read o) fuel (source_of text false pulls) = Some (ls, s') /\ concat ls = text.
Proof.
  intros Re L K M Fu. pose proof (all_lines_app _ _ _ L) as A. destruct (C36_read_all read o text false pulls lines fuel) as (s' & E & _); auto.
  - rewrite Forall_forall. intros l Hl. unfold stored. rewrite K. clear - A M Hl. apply in_split in Hl. destruct Hl as (l1 & l2 & ->).
    rewrite map_app, concat_app in A. cbn in A. rewrite A in M. rewrite !zlen_app in *. pose proof (zlen_nonneg (concat (map (fun l => fst l ++ snd l) l1))). pose proof (zlen_nonneg (concat (map (fun l => fst l ++ snd l) l2))). lia.
  - pose proof (zlen_nonneg text). lia.
  - eexists _, s'. split; [exact E|]. rewrite A at 1. f_equal.
    replace (filter _ lines) with lines; [apply map_ext; intros [l t]; unfold stored; rewrite K; reflexivity|].
    clear. induction lines as [|[l t] lines IH]; [reflexivity|]. cbn. destruct t; cbn; f_equal; exact IH.
Qed.
(** Lines written by WriteLine() are read back, if they do not contain the newline (nor end with CR, if that would be ambiguous). *)
Theorem C36_write_read read w o lines pulls fuel : reading read -> o_keep o = false ->
  Forall (fun line => ~ In LF line /\ zlen line <= o_max o /\ (w = WLf -> o_newline o = RCrLfOrLf -> forall l, line <> l ++ [CR])) lines ->
  (w = WCrLf -> o_newline o = RCrLfOrLf) -> 0 <= o_max o -> (length lines < fuel)%nat ->
  exists s', read_lines (read o) fuel (source_of (concat (map (fun l => WriteLine l w) lines)) false pulls) = Some (lines, s') /\ s_rest s' = [] /\ s_ok s' = true.
Proof.
  intros Re K Fo C M Fu. assert (L : Forall (compatible w (o_newline o)) lines).
  { eapply Forall_impl; [|exact Fo]. intros line (H1 & H2 & H3). split; [exact H1|]. destruct w, (o_newline o); auto. discriminate (C eq_refl). }
  destruct (C36_read_all read o _ false pulls _ fuel Re (written_lines w (o_newline o) lines L)) as (s' & E & H); auto.
  - rewrite Forall_map. eapply Forall_impl; [|exact Fo]. intros line (H1 & H2 & H3). cbn. unfold stored. rewrite K. exact H2.
  - rewrite map_length. exact Fu.
  - exists s'. split; [|exact H]. rewrite E. do 2 f_equal. clear - K.
    replace (filter _ _) with (map (fun l : list Z => (l, WriteLine [] w)) lines).
    + rewrite map_map. cbn. unfold stored. rewrite K. apply map_id.
    + induction lines as [|line lines IH]; [reflexivity|]. cbn [map filter snd]. destruct w; cbn [WriteLine app]; f_equal; exact IH.
Qed.
(** A UTF-8 BOM is skipped if it is present and nothing else is skipped. *)
Theorem C36_skip_bom s : readable s -> exists s', SkipUtf8Bom s = Some s' /\ s_fails s' = s_fails s /\
  (s_ok s' = true <-> s_fails s = false \/ 3 <= zlen (s_rest s)) /\
  (forall rest, s_rest s = kUtf8Bom ++ rest -> s_rest s' = rest) /\ ((forall rest, s_rest s <> kUtf8Bom ++ rest) -> s_rest s' = s_rest s).
Proof. intro R. destruct (SkipUtf8Bom_ok s R) as (s' & E & _ & H). exists s'. auto. Qed.
(** TextWriter replaces each LF with CR-LF, however the text is divided into writes. *)
Theorem C36_text_writer srcs : exists outs, Forall2 (fun src out => TextWrite src = Some out) srcs outs /\ concat outs = lf_to_crlf (concat srcs).
Proof. exact (TextWrites_ok srcs). Qed.
(** TextReader replaces each CR-LF with LF, however the source is buffered and however the text is divided into reads.  A read
    returns data within the requested bounds, except for the last one, after which nothing remains. *)
Theorem C36_text_reader calls text fails pulls : Forall (fun c => 1 <= fst c <= snd c) calls ->
  exists pieces last t', text_reads calls (text_reader_of (source_of text fails pulls)) = Some (pieces, last, t') /\
    Forall2 (fun c data => fst c <= zlen data <= snd c) (firstn (length pieces) calls) pieces /\
    match last with
    | Some data => crlf_to_lf text = concat pieces ++ data
    | None => length pieces = length calls /\ exists more, crlf_to_lf text = concat pieces ++ more
    end.
Proof.
  intro Fo. destruct (text_reads_ok calls (text_reader_of (source_of text fails pulls))) as (pieces & last & t' & E & W & Ok & Eq & F2 & L); [cbn; unfold twf, wf; cbn; pose proof (zlen_nonneg text); lia | exact Fo |].
  exists pieces, last, t'. split; [exact E|]. split; [exact F2|]. change (remaining (text_reader_of (source_of text fails pulls))) with text in Eq. destruct last as [data|].
  - rewrite L in Eq. rewrite app_nil_r in Eq. exact Eq.
  - split; [exact L|]. eexists. exact Eq.
Qed.
(** TextReader undoes TextWriter, whatever the text. *)
Theorem C36_text_round_trip calls srcs outs pulls : Forall2 (fun src out => TextWrite src = Some out) srcs outs -> Forall (fun c => 1 <= fst c <= snd c) calls ->
  zlen (concat srcs) < zlen calls ->
  exists pieces data t', text_reads calls (text_reader_of (source_of (concat outs) false pulls)) = Some (pieces, Some data, t') /\ concat pieces ++ data = concat srcs.
Proof.
  intros F Fo Len. assert (E : concat outs = lf_to_crlf (concat srcs)).
  { clear - F. induction F as [|src out srcs outs H F IH]; [reflexivity|]. rewrite TextWrite_ok in H. injection H as <-. cbn. rewrite IH, lf_to_crlf_app. reflexivity. }
  destruct (C36_text_reader calls (concat outs) false pulls Fo) as (pieces & last & t' & Er & F2 & L). rewrite E, crlf_lf in L. destruct last as [data|].
  - exists pieces, data, t'. auto.
  - exfalso. destruct L as [Le (more & Eq)]. assert (zlen pieces <= zlen (concat pieces)).
    { assert (G : Forall (fun p : list Z => 1 <= zlen p) pieces).
      { assert (Fo' : Forall (fun c : Z * Z => 1 <= fst c <= snd c) (firstn (length pieces) calls)).
        { rewrite <- (firstn_skipn (length pieces) calls) in Fo. apply Forall_app in Fo. tauto. }
        clear - F2 Fo'. revert F2 Fo'. generalize (firstn (length pieces) calls). intros l F2. induction F2 as [|c p l pieces H F2 IH]; intro Fo; [constructor|].
        inversion Fo; subst. constructor; [lia | apply IH; assumption]. }
      clear - G. induction G as [|p pieces H G IH]; [cbn; lia|]. cbn [concat]. rewrite zlen_app, zlen_cons. lia. }
    rewrite Eq, zlen_app in Len. pose proof (zlen_nonneg more). unfold zlen in *. lia.
Qed.
(** Finding: if the source of a TextReader fails, the TextReader ends as if the source ended, and its own ok() stays [true]. *)
Theorem C36_text_reader_failure_refuted :
  exists t', TextRead (text_reader_of (source_of [72; 105; 13; 10] true [])) 10 10 = Some ((false, [72; 105; 10]), t') /\ s_ok (t_src t') = false /\ t_ok t' = true.
Proof. eexists. split; [vm_compute; reflexivity|]. split; reflexivity. Qed.

(** ** Concrete cases *)
(** "ab" CR LF CR "c" LF LF "d" CR, one or two bytes at a time *)
Definition sample : list Z := [97; 98; 13; 10; 13; 99; 10; 10; 100; 13].
Definition crlf_options : line_options := {| o_newline := RCrLfOrLf; o_keep := false; o_max := 3 |}.
Example C36_sample : all_lines RCrLfOrLf sample [([97; 98], [13; 10]); ([13; 99], [10]); ([], [10]); ([100; 13], [])] /\
  option_map fst (read_lines (ReadLine crlf_options) 5 (source_of sample false [1; 2; 1; 1; 2])) = Some [[97; 98]; [13; 99]; []; [100; 13]] /\
  option_map fst (read_lines (ReadLine_view crlf_options) 5 (source_of sample true [3; 2; 1; 1; 2])) = Some [[97; 98]; [13; 99]; []] /\
  option_map (fun r => (fst r, s_ok (snd r))) (ReadLine {| o_newline := RCrLfOrLf; o_keep := false; o_max := 1 |} (source_of sample false [3])) = Some ((false, [97]), false).
Proof.
  split.
  - econstructor; [apply (first_line_crlf RCrLfOrLf [97; 98]); [reflexivity | cbn; intuition discriminate]|].
    econstructor; [apply (first_line_lf RCrLfOrLf [13; 99]); [cbn; intuition discriminate | intros _ l H; destruct l as [|? [|? [|? ?]]]; discriminate]|].
    econstructor; [apply (first_line_lf RCrLfOrLf []); [intros [] | intros _ l H; destruct l; discriminate]|].
    econstructor; [apply (first_line_last RCrLfOrLf [100; 13]); [discriminate | cbn; intuition discriminate]|]. constructor.
  - repeat split; vm_compute; reflexivity.
Qed.
Example C36_sample_text : TextWrite [97; 10; 13; 10] = Some [97; 13; 10; 13; 13; 10] /\
  option_map fst (text_reads [(1, 1); (1, 1); (2, 2); (1, 4)] (text_reader_of (source_of [97; 13; 10; 13; 13; 10] false [1; 1; 2; 1]))) = Some ([[97]; [10]; [13; 10]], Some []).
Proof. split; vm_compute; reflexivity. Qed.

Print Assumptions C36_split. Print Assumptions C36_read_line. Print Assumptions C36_read_line_end. Print Assumptions C36_read_all. Print Assumptions C36_keep_newline.
Print Assumptions C36_write_read. Print Assumptions C36_skip_bom. Print Assumptions C36_text_writer. Print Assumptions C36_text_reader. Print Assumptions C36_text_round_trip.
Print Assumptions C36_text_reader_failure_refuted.
