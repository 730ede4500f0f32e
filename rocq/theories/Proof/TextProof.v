(** Proofs about sequences of lines, TextWriter, TextReader: Model/Lines.v. *)
From Verif Require Import Base.Bytes Model.BufferedSource Model.Lines Spec.LineSpec Proof.SourceProof Proof.LinesProof.

(** ** One line *)
Lemma line_content newline text line terminator rest (keep : bool) a b : first_line newline text line terminator rest -> line_end newline text = (a, b) ->
  (if keep then line ++ terminator else line) = ztake (if keep then a + b else a) text /\ zlen (if keep then line ++ terminator else line) = (if keep then a + b else a) /\
  rest = zdrop (a + b) text /\ (terminator = [] <-> b = 0) /\ text = line ++ terminator ++ rest.
Proof.
  intros F E. apply line_end_first in F. destruct F as (Ne & a' & b' & E' & -> & -> & ->). rewrite E in E'. injection E' as <- <-.
  pose proof (line_end_bounds _ _ _ _ E) as (Ba & Bb & Bc & _).
  assert (L : (if keep then ztake a text ++ ztake b (zdrop a text) else ztake a text) = ztake (if keep then a + b else a) text) by (destruct keep; [symmetry; apply ztake_split; lia | reflexivity]).
  split; [exact L|]. split; [rewrite L, zlen_ztake; destruct keep; lia|]. split; [reflexivity|]. split.
  - split; intro H; [|subst; reflexivity]. apply (f_equal zlen) in H. rewrite zlen_ztake, zlen_zdrop in H. change (zlen (@nil Z)) with 0 in H. lia.
  - rewrite app_assoc, <- ztake_split by lia. rewrite ztake_zdrop. reflexivity.
Qed.
Lemma all_lines_app newline text lines : all_lines newline text lines -> text = concat (map (fun l => fst l ++ snd l) lines).
Proof.
  induction 1 as [|text line terminator rest lines F H IH]; [reflexivity|]. cbn. rewrite <- IH.
  destruct (line_end newline text) as [a b] eqn:E. destruct (line_content _ _ _ _ _ false _ _ F E) as (_ & _ & _ & _ & Eq). rewrite <- app_assoc. exact Eq.
Qed.
Lemma first_line_unique newline text l1 t1 r1 l2 t2 r2 : first_line newline text l1 t1 r1 -> first_line newline text l2 t2 r2 -> l1 = l2 /\ t1 = t2 /\ r1 = r2.
Proof.
  rewrite !line_end_first. intros (_ & a & b & E & -> & -> & ->) (_ & a' & b' & E' & -> & -> & ->). rewrite E in E'. injection E' as <- <-. auto.
Qed.
Lemma all_lines_unique newline text lines : all_lines newline text lines -> forall lines', all_lines newline text lines' -> lines = lines'.
Proof.
  induction 1 as [|text line terminator rest lines F H IH]; intros lines' H'; inversion H' as [|text' l' t' r' ls' F' H'']; subst.
  - reflexivity.
  - apply line_end_first in F'. destruct F' as [[] _]. reflexivity.
  - apply line_end_first in F. destruct F as [[] _]. reflexivity.
  - destruct (first_line_unique _ _ _ _ _ _ _ _ F F') as (-> & -> & <-). f_equal. apply IH. assumption.
Qed.
Lemma first_line_shorter newline text line terminator rest : first_line newline text line terminator rest -> (length rest < length text)%nat.
Proof.
  intro F. pose proof F as F'. apply line_end_first in F'. destruct F' as (Ne & a & b & E & _ & _ & ->).
  pose proof (line_end_bounds _ _ _ _ E) as (Ba & Bb & Bc & _ & Bd). specialize (Bd Ne).
  assert (zlen (zdrop (a + b) text) < zlen text) by (rewrite zlen_zdrop; lia). unfold zlen in *. lia.
Qed.
Lemma all_lines_exist newline text : exists lines, all_lines newline text lines.
Proof.
  remember (length text) as n eqn:L. assert (Le : (length text <= n)%nat) by lia. clear L. revert text Le.
  induction n as [|n IH]; intros text Le.
  - destruct text; [|cbn in Le; lia]. exists []. constructor.
  - destruct text as [|x text]; [exists []; constructor|].
    destruct (first_line_exists newline (x :: text)) as (line & terminator & rest & F); [discriminate|].
    pose proof (first_line_shorter _ _ _ _ _ F). destruct (IH rest) as [lines H']; [lia|]. exists ((line, terminator) :: lines). econstructor; eassumption.
Qed.

Section Read.
  Variable o : line_options.
  Variable read : source -> option line_result.
  Hypothesis Max : 0 <= o_max o.
  Hypothesis Read : forall s, readable s ->
    exists r, read s = Some r /\
    (s_rest s = [] -> fst r = (false, []) /\ s_ok (snd r) = negb (s_fails s) /\ s_rest (snd r) = [] /\ wf (snd r) /\ s_fails (snd r) = s_fails s) /\
    (s_rest s <> [] -> line_outcome o s [] r).
  Definition content (l : list Z * list Z) : list Z := if o_keep o then fst l ++ snd l else fst l.
  Lemma read_one s line terminator rest : readable s -> first_line (o_newline o) (s_rest s) line terminator rest ->
    exists s', read s = Some (if o_max o <? zlen (content (line, terminator)) then ((false, ztake (o_max o) (content (line, terminator))), s')
                              else ((s_ok s', content (line, terminator)), s')) /\
      s_ok s' = (zlen (content (line, terminator)) <=? o_max o) && negb (match terminator with [] => s_fails s | _ => false end) /\
      (zlen (content (line, terminator)) <= o_max o -> s_rest s' = rest) /\ wf s' /\ s_fails s' = s_fails s.
  Proof.
    intros R F. destruct (Read s R) as (r & E & _ & H). assert (Ne : s_rest s <> []) by (apply line_end_first in F; tauto). specialize (H Ne). unfold line_outcome in H.
    destruct (line_end (o_newline o) (s_rest s)) as [a b] eqn:Le. destruct (line_content _ _ _ _ _ (o_keep o) _ _ F Le) as (C1 & C2 & C3 & C4 & C5).
    unfold content. cbn [fst snd]. rewrite C2. destruct H as (W & Fl & O).
    set (n := if o_keep o then a + b else a) in *. exists (snd r). rewrite E. destruct r as [[ok dest] s']. cbn [fst snd] in *.
    revert O. fold n. destruct (o_max o <? n) eqn:Mx; intros (O1 & O2 & O3); injection O1 as -> ->.
    - replace (n <=? o_max o) with false by lia. cbn. split; [|split; [assumption|]; split; [lia|]; auto]. f_equal. f_equal. f_equal. rewrite C1, ztake_ztake. f_equal. lia.
    - replace (n <=? o_max o) with true by lia. cbn. split; [rewrite C1, O2; reflexivity|]. split.
      + rewrite O2. f_equal. destruct terminator; [replace (b =? 0) with true by (symmetry; apply Z.eqb_eq, C4; reflexivity); reflexivity|].
        replace (b =? 0) with false; [reflexivity|]. symmetry. apply Z.eqb_neq. intro X. apply C4 in X. discriminate.
      + split; [intros _; rewrite O3, C3; reflexivity|]. auto.
  Qed.
  (** [true] is returned for lines which end with a terminator, and for the last line if the source ends there and does not fail. *)
  Definition complete (fails : bool) (l : list Z * list Z) : bool := match snd l with [] => negb fails | _ => true end.
  Lemma read_all lines text : all_lines (o_newline o) text lines -> Forall (fun l => zlen (content l) <= o_max o) lines ->
    forall s fuel, readable s -> s_rest s = text -> (length lines < fuel)%nat ->
    exists s', read_lines read fuel s = Some (map content (filter (complete (s_fails s)) lines), s') /\ s_rest s' = [] /\ s_ok s' = negb (s_fails s).
  Proof.
    induction 1 as [|text line terminator rest lines F H IH]; intros Mx s fuel R E Fu; (destruct fuel as [|fuel]; [lia|]); cbn [read_lines].
    - destruct (Read s R) as (r & Er & Hr & _). destruct (Hr E) as (H1 & H2 & H3 & _). rewrite Er. destruct r as [[ok dest] s']. cbn in *. injection H1 as -> ->. exists s'. auto.
    - inversion Mx as [|x y M1 M2]; subst. cbn [length] in Fu. destruct (read_one s line terminator rest R F) as (s' & Er & Ok & Re & W & Fl).
      rewrite Er. replace (o_max o <? _) with false by lia. specialize (Re M1). replace (_ <=? o_max o) with true in Ok by lia. cbn in Ok.
      cbn [filter]. unfold complete at 1. cbn [snd].
      assert (Last : terminator = [] -> rest = [] /\ lines = []).
      { intros ->. destruct (line_end (o_newline o) (s_rest s)) as [a b] eqn:Le. destruct (line_content _ _ _ _ _ false _ _ F Le) as (_ & _ & C3 & C4 & _).
        pose proof (line_end_bounds _ _ _ _ Le) as (_ & _ & _ & Z0 & _). assert (B0 : b = 0) by (apply C4; reflexivity). specialize (Z0 B0).
        rewrite zdrop_all in C3 by lia. split; [exact C3|]. rewrite C3 in H. inversion H; [reflexivity|]. match goal with X : first_line _ [] _ _ _ |- _ => apply line_end_first in X; destruct X as [[] _]; reflexivity end. }
      destruct (s_ok s') eqn:Ok'.
      + destruct (IH M2 s' fuel) as (s2 & E2 & R2 & O2); [split; assumption | assumption | lia |]. rewrite E2. cbn [option_map fst snd]. exists s2.
        replace (match terminator with [] => negb (s_fails s) | _ :: _ => true end) with true by (destruct terminator; [rewrite Ok; reflexivity | reflexivity]).
        cbn [map]. rewrite Fl. split; [reflexivity|]. split; [assumption|]. rewrite <- Fl. exact O2.
      + destruct terminator as [|x terminator]; [|discriminate]. destruct (Last eq_refl) as [-> ->]. rewrite <- Ok. cbn. exists s'. auto.
  Qed.
End Read.

(** ** Writing lines *)
Definition compatible (w : WriteNewline) (r : ReadNewline) (line : list Z) : Prop :=
  ~ In LF line /\ match w, r with
                  | WLf, RLf => True
                  | WLf, RCrLfOrLf => forall l, line <> l ++ [CR]
                  | WCrLf, RLf => False
                  | WCrLf, RCrLfOrLf => True
                  end.
Lemma written_lines w r lines : Forall (compatible w r) lines ->
  all_lines r (concat (map (fun l => WriteLine l w) lines)) (map (fun l => (l, WriteLine [] w)) lines).
Proof.
  induction 1 as [|line lines [N C] _ IH]; cbn [map concat]; [constructor|]. eapply all_lines_cons; [|exact IH]. unfold WriteLine. cbn [app].
  destruct w, r; try contradiction; rewrite <- app_assoc.
  - apply (first_line_lf RLf line (concat (map (fun l => WriteLine l WLf) lines))); [assumption|discriminate].
  - apply (first_line_lf RCrLfOrLf line (concat (map (fun l => WriteLine l WLf) lines))); auto.
  - apply (first_line_crlf RCrLfOrLf line (concat (map (fun l => WriteLine l WCrLf) lines))); auto.
Qed.

(** ** BOM *)
Lemma SkipUtf8Bom_ok s : readable s -> exists s', SkipUtf8Bom s = Some s' /\ wf s' /\ s_fails s' = s_fails s /\
  (s_ok s' = true <-> s_fails s = false \/ 3 <= zlen (s_rest s)) /\
  (forall rest, s_rest s = kUtf8Bom ++ rest -> s_rest s' = rest) /\ ((forall rest, s_rest s <> kUtf8Bom ++ rest) -> s_rest s' = s_rest s).
Proof.
  intros [W Ok]. unfold SkipUtf8Bom. change (zlen kUtf8Bom) with 3. destruct (Pull 3 s) as [pulled s'] eqn:Pu. destruct pulled; cbn [andb].
  - apply Pull_true in Pu; [|assumption|lia]. destruct Pu as ((R & F) & Ok' & W' & Av & _ & Le).
    assert (B : ztake 3 (buffer s') = ztake 3 (s_rest s)) by (unfold buffer; rewrite ztake_ztake, R; f_equal; lia). rewrite B.
    destruct (list_eqb (ztake 3 (s_rest s)) kUtf8Bom) eqn:Eq.
    + apply list_eqb_eq in Eq. destruct (move_cursor_some 3 s' ltac:(lia) W') as (s2 & E2 & H1 & _ & H3 & H4 & H5). exists s2. split; [exact E2|]. split; [exact H5|].
      split; [congruence|]. split; [split; [auto|]; intros _; congruence|]. rewrite H1, R. split.
      * intros rest Er. rewrite Er. reflexivity.
      * intro X. exfalso. apply (X (zdrop 3 (s_rest s))). rewrite <- Eq. symmetry. apply ztake_zdrop.
    + exists s'. split; [reflexivity|]. split; [exact W'|]. split; [exact F|]. split; [split; [auto|]; intros _; congruence|]. split; [|intros _; exact R].
      intros rest Er. rewrite Er in Eq. discriminate Eq.
  - apply Pull_false in Pu; [|assumption|lia]. destruct Pu as ((R & F) & Ok' & W' & Av & Le). exists s'. split; [reflexivity|]. split; [exact W'|]. split; [exact F|].
    split; [rewrite Ok', Ok; destruct (s_fails s); cbn; intuition (try discriminate; lia)|]. split; [|intros _; exact R].
    intros rest Er. rewrite Er in Le. rewrite zlen_app in Le. change (zlen kUtf8Bom) with 3 in Le. pose proof (zlen_nonneg rest). lia.
Qed.

(** ** TextWriter *)
Lemma lf_to_crlf_app a b : lf_to_crlf (a ++ b) = lf_to_crlf a ++ lf_to_crlf b.
Proof. apply flat_map_app. Qed.
Lemma lf_to_crlf_no_lf l : ~ In LF l -> lf_to_crlf l = l.
Proof.
  induction l as [|x l IH]; intro N; [reflexivity|]. cbn. destruct (x =? LF) eqn:E; [exfalso; apply N; left; lia|]. cbn. f_equal. apply IH. intro I2. apply N. right. exact I2.
Qed.
Lemma text_write_loop_ok fuel src : zlen src < Z.of_nat fuel -> text_write_loop fuel src = Some (lf_to_crlf src).
Proof.
  revert src. induction fuel as [|fuel IH]; intros src Fu; [pose proof (zlen_nonneg src); lia|]. cbn [text_write_loop].
  destruct (index_of_byte LF src) as [i|] eqn:E.
  - apply index_of_byte_some in E. destruct E as (Hi & B & N). rewrite IH by (rewrite zlen_zdrop; lia). cbn [option_map]. f_equal.
    rewrite (byte_at_split i src LF ltac:(lia) B) at 3. rewrite lf_to_crlf_app, (lf_to_crlf_no_lf _ N). unfold WriteLine. rewrite <- app_assoc. reflexivity.
  - apply index_of_byte_none in E. rewrite lf_to_crlf_no_lf by assumption. reflexivity.
Qed.
Lemma TextWrite_ok src : TextWrite src = Some (lf_to_crlf src).
Proof. apply text_write_loop_ok. unfold zlen. lia. Qed.
Lemma TextWrites_ok srcs : exists outs, Forall2 (fun src out => TextWrite src = Some out) srcs outs /\ concat outs = lf_to_crlf (concat srcs).
Proof.
  induction srcs as [|src srcs (outs & F & E)]; [exists []; split; [constructor|reflexivity]|].
  exists (lf_to_crlf src :: outs). split; [constructor; [apply TextWrite_ok|exact F]|]. cbn [concat]. rewrite E, lf_to_crlf_app. reflexivity.
Qed.

(** ** TextReader *)
Lemma crlf_to_lf_cons c t : crlf_to_lf (c :: t) = if (c =? CR) && match t with d :: _ => d =? LF | [] => false end then crlf_to_lf t else c :: crlf_to_lf t.
Proof. destruct t; cbn; [rewrite andb_false_r; reflexivity|reflexivity]. Qed.
Lemma crlf_to_lf_no_cr l t : ~ In CR l -> crlf_to_lf (l ++ t) = l ++ crlf_to_lf t.
Proof.
  induction l as [|x l IH]; intro N; [reflexivity|]. cbn [app]. rewrite crlf_to_lf_cons. replace (x =? CR) with false; [|symmetry; apply Z.eqb_neq; intro E; apply N; left; exact E].
  cbn [andb]. f_equal. apply IH. intro I2. apply N. right. exact I2.
Qed.
Lemma crlf_lf t : crlf_to_lf (lf_to_crlf t) = t.
Proof.
  induction t as [|x t IH]; [reflexivity|]. change (lf_to_crlf (x :: t)) with ((if x =? LF then [CR; LF] else [x]) ++ lf_to_crlf t).
  destruct (x =? LF) eqn:E.
  - apply Z.eqb_eq in E. subst x. cbn [app]. rewrite crlf_to_lf_cons. cbn [Z.eqb CR LF Pos.eqb andb]. rewrite crlf_to_lf_cons. cbn [Z.eqb CR LF Pos.eqb andb]. f_equal. exact IH.
  - cbn [app]. rewrite crlf_to_lf_cons, IH. destruct (x =? CR) eqn:C; [|reflexivity]. cbn [andb].
    replace (match lf_to_crlf t with d :: _ => d =? LF | [] => false end) with false; [reflexivity|].
    destruct t as [|y t]; [reflexivity|]. cbn. destruct (y =? LF) eqn:E2; cbn; [reflexivity|]. symmetry. exact E2.
Qed.

Definition remaining (t : text_reader) : list Z := (if t_pending_cr t then [CR] else []) ++ s_rest (t_src t).
Definition twf (t : text_reader) : Prop := wf (t_src t).
Lemma text_read_loop_ok fuel t min_length max_length : twf t -> 1 <= min_length <= max_length ->
  2 * zlen (s_rest (t_src t)) + (if t_pending_cr t then 1 else 0) < Z.of_nat fuel ->
  exists ok data t', text_read_loop fuel t min_length max_length = Some ((ok, data), t') /\ twf t' /\ t_ok t' = t_ok t /\ s_fails (t_src t') = s_fails (t_src t) /\
    zlen data <= max_length /\ crlf_to_lf (remaining t) = data ++ crlf_to_lf (remaining t') /\
    (ok = true <-> min_length <= zlen data) /\ (ok = false -> remaining t' = []).
Proof.
  revert t min_length max_length. induction fuel as [|fuel IH]; intros t mn mx W Hm Fu; [pose proof (zlen_nonneg (s_rest (t_src t))); destruct (t_pending_cr t); lia|].
  cbn [text_read_loop]. unfold twf in W. destruct (Pull 1 (t_src t)) as [pulled s] eqn:Pu. destruct pulled; cbn [negb].
  - apply Pull_true in Pu; [|assumption|lia]. destruct Pu as ((R & F) & _ & W' & Av & _ & Le). pose proof W' as W2. unfold wf in W2. rewrite R in W2.
    match goal with |- context [match ?X with Some _ => _ | None => None end] => assert (St : exists data t1, X = Some (data, t1) /\ twf t1 /\ t_ok t1 = t_ok t /\ s_fails (t_src t1) = s_fails (t_src t) /\ zlen data <= mx /\
          crlf_to_lf (remaining t) = data ++ crlf_to_lf (remaining t1) /\
          2 * zlen (s_rest (t_src t1)) + (if t_pending_cr t1 then 1 else 0) < 2 * zlen (s_rest (t_src t)) + (if t_pending_cr t then 1 else 0)) end.
    { unfold remaining. destruct (t_pending_cr t) eqn:Pc.
      - rewrite cursor_at_eq by (try assumption; lia). rewrite R. destruct (byte_at_some 0 (s_rest (t_src t)) ltac:(lia)) as [c B]. rewrite B.
        destruct (s_rest (t_src t)) as [|x text] eqn:Tx; [discriminate B|]. cbn in B. injection B as ->.
        destruct (c =? LF) eqn:C.
        + destruct (move_cursor_some 1 s ltac:(lia) W') as (s2 & E2 & H1 & _ & H3 & H4 & H5). rewrite E2. cbn [option_map]. eexists _, _. split; [reflexivity|]. cbn [t_src t_pending_cr t_ok].
          split; [exact H5|]. split; [reflexivity|]. split; [congruence|]. split; [change (zlen [LF]) with 1; lia|]. rewrite H1, R. change (zdrop 1 (c :: text)) with text. apply Z.eqb_eq in C. subst c.
          split; [destruct text; reflexivity|]. rewrite zlen_cons. lia.
        + eexists _, _. split; [reflexivity|]. cbn [t_src t_pending_cr t_ok]. split; [exact W'|]. split; [reflexivity|]. split; [congruence|]. split; [cbn; lia|].
          rewrite R. split; [cbn [app]; rewrite crlf_to_lf_cons, C; rewrite andb_false_r; reflexivity|]. lia.
      - cbv zeta. cbn [app]. set (len := Z.min (s_avail s) mx). assert (Hl : 1 <= len <= s_avail s /\ len <= mx) by lia.
        destruct (index_of_byte CR (ztake len (s_rest s))) as [i|] eqn:Ix.
        + apply index_of_byte_some in Ix. destruct Ix as (Hi & Bi & Ni). rewrite R in *. rewrite zlen_ztake in Hi. rewrite byte_at_take in Bi by lia.
          rewrite ztake_ztake in Ni. replace (Z.min i len) with i in Ni by lia.
          pose proof (byte_at_split i (s_rest (t_src t)) CR ltac:(lia) Bi) as Sp.
          destruct (i =? s_avail s - 1) eqn:Last.
          * destruct (move_cursor_some (i + 1) s ltac:(lia) W') as (s2 & E2 & H1 & _ & H3 & H4 & H5). rewrite E2. cbn [option_map]. eexists _, _. split; [reflexivity|]. cbn [t_src t_pending_cr t_ok].
            split; [exact H5|]. split; [reflexivity|]. split; [congruence|]. split; [rewrite zlen_ztake; lia|]. rewrite H1, R. split.
            -- rewrite Sp at 1. rewrite crlf_to_lf_no_cr by assumption. reflexivity.
            -- rewrite zlen_zdrop. lia.
          * rewrite cursor_at_eq by (try assumption; lia). rewrite R. destruct (byte_at_some (i + 1) (s_rest (t_src t)) ltac:(lia)) as [c B]. rewrite B.
            destruct (move_cursor_some (i + 1) s ltac:(lia) W') as (s2 & E2 & H1 & H2 & H3 & H4 & H5). rewrite E2.
            assert (Sp2 : zdrop (i + 1) (s_rest (t_src t)) = c :: zdrop (i + 2) (s_rest (t_src t))).
            { pose proof (byte_at_split 0 (zdrop (i + 1) (s_rest (t_src t))) c ltac:(lia)) as X. rewrite X.
              - rewrite ztake_nonpos by lia. cbn [app]. rewrite zdrop_zdrop by lia. do 2 f_equal. lia.
              - rewrite byte_at_drop by lia. rewrite Z.add_0_r. exact B. }
            destruct (c =? LF) eqn:C.
            -- destruct (move_cursor_some 1 s2 ltac:(lia) H5) as (s3 & E3 & G1 & _ & G3 & G4 & G5). rewrite E3. cbn [option_map]. eexists _, _. split; [reflexivity|]. cbn [t_src t_pending_cr t_ok].
               split; [exact G5|]. split; [reflexivity|]. split; [congruence|]. split; [rewrite zlen_app, zlen_ztake; cbn; lia|]. rewrite G1, H1, R. rewrite zdrop_zdrop by lia.
               replace (1 + (i + 1)) with (i + 2) by lia. apply Z.eqb_eq in C. subst c. split.
               ++ rewrite Sp at 1. rewrite crlf_to_lf_no_cr by assumption. rewrite Sp2. rewrite <- app_assoc. f_equal. cbn [app].
                  destruct (zdrop (i + 2) (s_rest (t_src t))); reflexivity.
               ++ rewrite zlen_zdrop. lia.
            -- eexists _, _. split; [reflexivity|]. cbn [t_src t_pending_cr t_ok]. split; [exact H5|]. split; [reflexivity|]. split; [congruence|].
               split; [rewrite zlen_app, zlen_ztake; cbn; lia|]. rewrite H1, R. split.
               ++ rewrite Sp at 1. rewrite crlf_to_lf_no_cr by assumption. rewrite <- app_assoc. f_equal. cbn [app]. rewrite Sp2, crlf_to_lf_cons, C. rewrite andb_false_r. reflexivity.
               ++ rewrite zlen_zdrop. lia.
        + apply index_of_byte_none in Ix. rewrite R in *. destruct (move_cursor_some len s ltac:(lia) W') as (s2 & E2 & H1 & H2 & H3 & H4 & H5). rewrite E2. cbn [option_map].
          eexists _, _. split; [reflexivity|]. cbn [t_src t_pending_cr t_ok]. split; [exact H5|]. split; [reflexivity|]. split; [congruence|]. split; [rewrite zlen_ztake; lia|].
          rewrite H1, R. split; [|rewrite zlen_zdrop; lia]. cbn [app]. rewrite <- crlf_to_lf_no_cr by assumption. rewrite ztake_zdrop. reflexivity. }
    destruct St as (data & t1 & -> & T1 & T2 & T3 & T4 & T5 & T6). destruct (mn <=? zlen data) eqn:Mn.
    + exists true, data, t1. split; [reflexivity|]. repeat (split; [assumption|]). split; [split; intros; [lia|reflexivity]|discriminate].
    + destruct (IH t1 (mn - zlen data) (mx - zlen data) T1) as (ok & data2 & t2 & E & G1 & G2 & G3 & G4 & G5 & G6 & G7); [lia | lia |].
      rewrite E. cbn [option_map fst snd]. exists ok, (data ++ data2), t2. split; [reflexivity|]. split; [exact G1|]. split; [congruence|]. split; [congruence|]. rewrite zlen_app.
      split; [lia|]. split; [rewrite T5, G5, app_assoc; reflexivity|]. split; [rewrite G6; lia|exact G7].
  - apply Pull_false in Pu; [|assumption|lia]. destruct Pu as ((R & F) & _ & W' & _ & Le).
    assert (E : s_rest (t_src t) = []) by (destruct (s_rest (t_src t)) as [|x l]; [reflexivity | rewrite zlen_cons in Le; pose proof (zlen_nonneg l); lia]).
    unfold remaining. rewrite E. destruct (t_pending_cr t) eqn:Pc.
    + eexists _, _, _. split; [reflexivity|]. cbn. rewrite R, E. repeat (split; [first [assumption | reflexivity | lia]|]). reflexivity.
    + eexists _, _, _. split; [reflexivity|]. cbn. rewrite R, E. repeat (split; [first [assumption | reflexivity | lia]|]); auto.
Qed.
Lemma TextRead_ok t min_length max_length : twf t -> 1 <= min_length <= max_length ->
  exists ok data t', TextRead t min_length max_length = Some ((ok, data), t') /\ twf t' /\ t_ok t' = t_ok t /\ s_fails (t_src t') = s_fails (t_src t) /\
    zlen data <= max_length /\ crlf_to_lf (remaining t) = data ++ crlf_to_lf (remaining t') /\
    (ok = true <-> min_length <= zlen data) /\ (ok = false -> remaining t' = []).
Proof.
  intros W H. unfold TextRead. replace ((1 <=? min_length) && (min_length <=? max_length)) with true by lia. apply text_read_loop_ok; [assumption..|]. unfold zlen. destruct (t_pending_cr t); lia.
Qed.
Lemma text_reads_ok calls t : twf t -> Forall (fun c => 1 <= fst c <= snd c) calls ->
  exists pieces last t', text_reads calls t = Some (pieces, last, t') /\ twf t' /\ t_ok t' = t_ok t /\
    crlf_to_lf (remaining t) = concat pieces ++ match last with Some data => data | None => [] end ++ crlf_to_lf (remaining t') /\
    Forall2 (fun c data => fst c <= zlen data <= snd c) (firstn (length pieces) calls) pieces /\
    match last with None => length pieces = length calls | Some _ => remaining t' = [] end.
Proof.
  revert t. induction calls as [|[mn mx] calls IH]; intros t W Fo; cbn [text_reads].
  - eexists [], None, t. split; [reflexivity|]. cbn. split; [exact W|]. repeat (split; [try reflexivity; constructor|]). reflexivity.
  - inversion Fo as [|x y F1 F2]; subst. cbn in F1. destruct (TextRead_ok t mn mx W F1) as (ok & data & t1 & E & G1 & G2 & G3 & G4 & G5 & G6 & G7). rewrite E. destruct ok.
    + destruct (IH t1 G1 F2) as (pieces & last & t2 & E2 & I1 & I2 & I3 & I4 & I5). rewrite E2. cbn [option_map fst snd]. exists (data :: pieces), last, t2. split; [reflexivity|].
      split; [exact I1|]. split; [congruence|]. split; [cbn [concat]; rewrite G5, I3, <- app_assoc; reflexivity|]. split; [cbn [length firstn]; constructor; [cbn; intuition lia|exact I4]|].
      destruct last; [exact I5|]. cbn. congruence.
    + exists [], (Some data), t1. split; [reflexivity|]. split; [exact G1|]. split; [exact G2|]. split; [cbn [concat app]; exact G5|]. split; [constructor|]. auto.
Qed.
