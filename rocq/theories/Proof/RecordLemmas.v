(** Lemmas for Props/RecordProps.v. *)
From Coq Require Import Sorted.
From Verif Require Import Base.Bytes Model.ChunkReader Model.RecordWriter Model.RecordReader Spec.BlockSpec Spec.FileSpec Spec.CursorSpec Spec.CursorLink Spec.SessionSpec Spec.ReadSpec
  Proof.FileProof Proof.RecordReaderProof Proof.RecordWriterProof Proof.SeqReadProof Proof.SessionProof.

(** ** The cursor *)
Fixpoint cursor_after (v : view) (cs : list reader_call) (i : Z) : Z :=
  match cs with [] => i | c :: cs' => cursor_after v cs' (snd (cursor_step v c i)) end.
Lemma cursor_app v a : forall b i, cursor_run v (a ++ b) i = cursor_run v a i ++ cursor_run v b (cursor_after v a i).
Proof. induction a as [|c a IH]; intros b i; [reflexivity|]. cbn [app cursor_run cursor_after]. destruct (cursor_step v c i) as [o j]. cbn [snd]. rewrite IH. reflexivity. Qed.
Lemma count_range {A} (f : A -> bool) l : 0 <= count f l <= zlen l.
Proof. unfold count. induction l as [|x l IH]; cbn [filter]; [change (zlen (@nil A)) with 0; lia|]. rewrite zlen_cons. destruct (f x); [rewrite zlen_cons|]; lia. Qed.
Lemma cursor_range v cs : forall i, 0 <= i <= zlen (records_of v) -> 0 <= cursor_after v cs i <= zlen (records_of v).
Proof.
  induction cs as [|c cs IH]; intros i I; [exact I|]. cbn [cursor_after]. apply IH. pose proof (zlen_positions v) as ZP. destruct c; cbn [cursor_step].
  - destruct (nth_error (records_of v) (Z.to_nat i)) eqn:E; cbn [snd]; [|lia]. assert (Z.to_nat i < length (records_of v))%nat by (apply nth_error_Some; congruence). unfold zlen in *. lia.
  - cbn [snd]. rewrite <- ZP. apply count_range.
  - cbn [snd]. rewrite <- ZP. apply count_range.
  - destruct (Z.eqb_spec i 0); cbn [snd]; lia.
  - exact I.
Qed.
Lemma count_app {A} (f : A -> bool) a b : count f (a ++ b) = count f a + count f b.
Proof. unfold count. rewrite filter_app, zlen_app. reflexivity. Qed.
Lemma count_all {A} (f : A -> bool) l : Forall (fun x => f x = true) l -> count f l = zlen l.
Proof. intros F. unfold count. f_equal. induction F as [|x l H F IH]; [reflexivity|]. cbn. rewrite H, IH. reflexivity. Qed.
Lemma count_none {A} (f : A -> bool) l : Forall (fun x => f x = false) l -> count f l = 0.
Proof. intros F. unfold count. induction F as [|x l H F IH]; [reflexivity|]. cbn. rewrite H. exact IH. Qed.
Lemma sorted_split ps i p : StronglySorted pos_lt ps -> nth_error ps i = Some p ->
  exists a b, ps = a ++ p :: b /\ length a = i /\ Forall (fun q => pos_lt q p) a /\ Forall (fun q => pos_lt p q) b.
Proof.
  intros S. revert i. induction S as [|x l S IH F]; intros i E; [destruct i; discriminate E|]. destruct i as [|i]; cbn [nth_error] in E.
  - injection E as <-. exists [], l. repeat split; try assumption. constructor.
  - destruct (IH i E) as (a & b & -> & <- & H1 & H2). exists (x :: a), b. repeat split; [|exact H2]. constructor; [|exact H1]. apply Forall_app in F as [_ F]. apply (Forall_inv F).
Qed.
Lemma before_irrefl p : before p p = false.
Proof. unfold before. rewrite !Z.ltb_irrefl. cbn. apply andb_false_r. Qed.
Lemma before_asym p q : before p q = true -> before q p = false.
Proof. unfold before. destruct (Z.ltb_spec (fst p) (fst q)), (Z.ltb_spec (fst q) (fst p)), (Z.eqb_spec (fst p) (fst q)), (Z.eqb_spec (fst q) (fst p)), (Z.ltb_spec (snd p) (snd q)), (Z.ltb_spec (snd q) (snd p)); cbn; try congruence; lia. Qed.
Lemma count_before_nth ps i p : StronglySorted pos_lt ps -> nth_error ps i = Some p -> count (fun q => before q p) ps = Z.of_nat i.
Proof.
  intros S E. destruct (sorted_split ps i p S E) as (a & b & -> & <- & H1 & H2). rewrite count_app, count_all.
  - rewrite count_none; [unfold zlen; lia|]. constructor; [apply before_irrefl|]. eapply Forall_impl; [|exact H2]. intros q [Q _]. apply before_asym, Q.
  - eapply Forall_impl; [|exact H1]. intros q [Q _]. exact Q.
Qed.
Lemma count_numeric_nth ps n i p : StronglySorted pos_lt ps -> nth_error ps i = Some p -> n <= numeric p ->
  (forall j q, (j < i)%nat -> nth_error ps j = Some q -> numeric q < n) -> count (fun q => numeric q <? n) ps = Z.of_nat i.
Proof.
  intros S E N B. destruct (sorted_split ps i p S E) as (a & b & EP & LA & H1 & H2). rewrite EP, count_app, count_all.
  - rewrite count_none; [unfold zlen; lia|]. constructor; [apply Z.ltb_ge; exact N|]. eapply Forall_impl; [|exact H2]. intros q [_ Q]. apply Z.ltb_ge. lia.
  - apply Forall_forall. intros q Q. apply In_nth_error in Q as [j Q]. apply Z.ltb_lt. apply (B j).
    + rewrite <- LA. apply nth_error_Some. congruence.
    + rewrite EP, nth_error_app1; [exact Q|]. apply nth_error_Some. congruence.
Qed.

Section Records.
  Variable hash : list Z -> Z.
  Hypothesis hash_range : forall l, 0 <= hash l < 2 ^ 64.
  Variable compress : Z -> list Z -> list Z.
  Variable decompress : Z -> list Z -> option (list Z).
  Variable transpose_encode : options -> list (list Z) -> list Z.
  Variable transpose_decode : list Z -> Z -> Z -> option (list Z * list Z).
  Hypothesis CODECS : codecs compress decompress transpose_encode transpose_decode.
  Notation file_ok := (file_ok hash decompress transpose_decode).
  Notation reads_as := (reads_as hash decompress transpose_decode).

  (** ** Reading a file *)
  Lemma read_ok file qr : file_ok file qr -> reads_as file (vw qr).
  Proof. intros FO cs C. apply file_cursor; assumption. Qed.
  Lemma read_whole file qr : file_ok file qr ->
    exists d, RR_ReadAll hash decompress transpose_decode (S (length (records_of (vw qr)))) file NewRecordReader = Some (records_of (vw qr), d) /\
      rd_ok d = true /\ fst (RR_Close d) = true.
  Proof.
    intros FO. destruct (cut_read hash hash_range decompress transpose_decode file qr (zlen file) FO) as (B & C & d & E & EC & R & K & CL).
    { pose proof (zlen_nonneg file). lia. }
    assert (C = []) as ->.
    { destruct C as [|y C]; [reflexivity|]. pose proof (layout_bound hash (map fst qr) 0 file (zlen file) (f_layout _ _ _ _ _ FO)) as LB.
      rewrite E, map_app in LB. apply Forall_app in LB as [_ LB]. cbn [map] in LB. inversion LB; subst. lia. }
    rewrite app_nil_r in E. subst B. exists d. cbn [beginning] in CL. rewrite Z.ltb_irrefl in CL. split; [|split; [exact K|exact CL]].
    rewrite ztake_all in R by lia. apply R. rewrite <- fst_all_of, map_length. lia.
  Qed.

  (** ** Sessions *)
  Lemma sessions_file ss : Forall session_ok ss -> sessions_size ss <= 2 ^ 62 ->
    exists rs file qr ps, Sessions hash compress transpose_encode ss [] = Some (rs, file) /\ file_ok file qr /\ zlen file <= sessions_size ss /\ all_true rs /\
      map (fun r => length (fst r)) rs = map (fun s => length (snd s)) ss /\ all_positions ss rs = map Some ps /\ positions_of (vw qr) = ps /\ records_of (vw qr) = all_written ss /\
      (forall i j os b ob, nth_error rs i = Some (os, b) -> nth_error os j = Some ob ->
         mark hash decompress transpose_decode (records_before ss i j) (pos_of ob) qr (positions_of (vw qr)) /\
         exists o cs, nth_error ss i = Some (o, cs) /\ last_of ob = List.last (write_positions (firstn (S j) cs) (firstn (S j) os)) None) /\
      match ss with [] => True | (o, _) :: _ => exists more, kinds qr = opening transpose_encode o ++ more end.
  Proof.
    intros OK SZ. destruct (sessions_run hash hash_range compress decompress transpose_encode transpose_decode CODECS ss [] [] 0 (file_nil_ok _ _ _) ltac:(reflexivity) OK ltac:(lia))
      as (rs & out & new & ps & H1 & H2 & H3 & H4 & H5 & H6 & H7 & H8 & H9 & H10). cbn [app] in *.
    exists rs, out, new, ps. change (positions_of (vw [])) with (@nil (Z * Z)) in *. change (records_of (vw [])) with (@nil (list Z)) in *. change (zlen (@nil (Z * Z))) with 0 in *. cbn [app] in *.
    split; [exact H1|]. split; [exact H2|]. split; [lia|]. split; [exact H4|]. split; [exact H5|]. split; [exact H6|]. split; [exact H7|]. split; [exact H8|]. split; [exact H9|]. exact (H10 eq_refl).
  Qed.

  Lemma round_trip ss : Forall session_ok ss -> sessions_size ss <= 2 ^ 62 ->
    exists rs file d, Sessions hash compress transpose_encode ss [] = Some (rs, file) /\ all_true rs /\
      map (fun r => length (fst r)) rs = map (fun s => length (snd s)) ss /\
      RR_ReadAll hash decompress transpose_decode (S (length (all_written ss))) file NewRecordReader = Some (all_written ss, d) /\
      rd_ok d = true /\ fst (RR_Close d) = true.
  Proof.
    intros OK SZ. destruct (sessions_file ss OK SZ) as (rs & file & qr & ps & H1 & FO & _ & H2 & H3 & _ & _ & H4 & _).
    destruct (read_whole file qr FO) as (d & R & K & C). rewrite H4 in R. exists rs, file, d. auto 10.
  Qed.

  Lemma reading ss : Forall session_ok ss -> sessions_size ss <= 2 ^ 62 ->
    exists rs file v, Sessions hash compress transpose_encode ss [] = Some (rs, file) /\
      records_of v = all_written ss /\ map Some (positions_of v) = all_positions ss rs /\ StronglySorted pos_lt (positions_of v) /\ reads_as file v /\
      (forall i j os b ob, nth_error rs i = Some (os, b) -> nth_error os j = Some ob ->
         (call_ok v (zlen file) (SeekToPos (pos_of ob)) /\ count (fun q => before q (pos_of ob)) (positions_of v) = records_before ss i j) /\
         exists o cs, nth_error ss i = Some (o, cs) /\ last_of ob = List.last (write_positions (firstn (S j) cs) (firstn (S j) os)) None).
  Proof.
    intros OK SZ. destruct (sessions_file ss OK SZ) as (rs & file & qr & ps & H1 & FO & _ & H2 & H3 & H5 & H6 & H4 & H7 & _).
    exists rs, file, (vw qr). split; [exact H1|]. split; [exact H4|]. split; [rewrite H6; symmetry; exact H5|]. split; [eapply positions_sorted; eassumption|]. split; [apply read_ok; exact FO|].
    intros i j os b ob NI NJ. destruct (H7 i j os b ob NI NJ) as [M1 M2]. split; [|exact M2]. eapply mark_final; eassumption.
  Qed.

  (** ** Flushing *)
  Lemma flushed ss o cs more : Forall session_ok (ss ++ [(o, cs ++ CallFlush :: more)]) -> sessions_size (ss ++ [(o, cs ++ CallFlush :: more)]) <= 2 ^ 62 ->
    exists rs file w0 os1 w1 os2 w2 v, Sessions hash compress transpose_encode ss [] = Some (rs, file) /\ NewRecordWriter hash transpose_encode o file = Some (true, w0) /\
      RunCalls hash compress transpose_encode (cs ++ [CallFlush]) w0 = Some (os1, w1) /\ RunCalls hash compress transpose_encode more w1 = Some (os2, w2) /\
      Forall (fun ob => result_of ob = true) (os1 ++ os2) /\
      records_of v = all_written ss ++ written cs /\ map Some (positions_of v) = all_positions (ss ++ [(o, cs ++ [CallFlush])]) (rs ++ [(os1, true)]) /\
      (exists out, w_dest w2 = w_dest w1 ++ out) /\
      (forall tail, exists d, reader_run hash decompress transpose_decode (w_dest w1 ++ tail) (repeat ReadNext (length (records_of v))) NewRecordReader
         = Some (record_replies v, d) /\ rd_ok d = true) /\
      (forall n, 0 <= n <= zlen (w_dest w2) -> exists k d, let got := firstn k (all_written ss ++ written cs ++ written more) in
         RR_ReadAll hash decompress transpose_decode (S (length got)) (ztake n (w_dest w2)) NewRecordReader = Some (got, d) /\ rd_ok d = true /\
         (zlen (w_dest w1) <= n -> (length (all_written ss ++ written cs) <= k)%nat)).
  Proof.
    intros OK SZ. apply Forall_app in OK as [OK1 OK2]. apply Forall_inv in OK2. destruct OK2 as [O CB]. cbn [fst snd] in *.
    assert (SA : forall a b, sessions_size (a ++ b) = sessions_size a + sessions_size b).
    { induction a as [|s a IH]; intros b; [reflexivity|]. cbn [app]. change (sessions_size (s :: a ++ b)) with (session_size s + sessions_size (a ++ b)). change (sessions_size (s :: a)) with (session_size s + sessions_size a). rewrite IH. lia. }
    rewrite SA in SZ. change (sessions_size [(o, cs ++ CallFlush :: more)]) with (session_size (o, cs ++ CallFlush :: more) + 0) in SZ. unfold session_size in SZ. cbn [fst snd] in SZ.
    assert (CA : forall a b, calls_size o (a ++ b) = calls_size o a + calls_size o b).
    { induction a as [|c a IH]; intros b; [reflexivity|]. cbn [app]. change (calls_size o (c :: a ++ b)) with (call_size o c + calls_size o (a ++ b)). change (calls_size o (c :: a)) with (call_size o c + calls_size o a). rewrite IH. lia. }
    replace (cs ++ CallFlush :: more) with ((cs ++ [CallFlush]) ++ more) in * by (rewrite <- app_assoc; reflexivity). rewrite CA in SZ. apply Forall_app in CB as [CB1 CB2].
    pose proof (sessions_size_nonneg hash hash_range ss OK1) as N1. pose proof (calls_size_nonneg hash hash_range o (cs ++ [CallFlush]) O) as N2. pose proof (calls_size_nonneg hash hash_range o more O) as N3. pose proof (opening_size_nonneg hash hash_range o O) as N4.
    pose proof (padding_nonneg (o_final_padding o) (oo_final o O)) as N5.
    destruct (sessions_file ss OK1 ltac:(lia)) as (rs & file & qr & ps & H1 & FO & FS & H2 & H3 & H5 & H6 & H4 & _).
    destruct (session_calls hash hash_range compress decompress transpose_encode transpose_decode CODECS o (cs ++ [CallFlush]) file qr (sessions_size ss) FO FS O CB1 ltac:(lia))
      as (w0 & os1 & out1 & new1 & pend1 & last1 & ps1 & NW & R1 & W1 & T1 & LN1 & WP1 & P1 & RC1 & _ & FL & _).
    specialize (FL CallFlush cs eq_refl eq_refl). subst pend1.
    destruct (run_calls hash hash_range compress decompress transpose_encode transpose_decode CODECS more o (qr ++ new1) (file ++ out1) [] last1 _ W1 CB2 ltac:(lia))
      as (os2 & out2 & new2 & pend2 & last2 & ps2 & R2 & W2 & T2 & LN2 & WP2 & P2 & RC2 & _ & _).
    rewrite positions_nil in P1. rewrite records_nil in RC1. rewrite records_nil in RC2.
    assert (WA : forall a b, written (a ++ b) = written a ++ written b) by (intros; unfold written; apply flat_map_app).
    rewrite WA in RC1. change (written [CallFlush]) with (@nil (list Z)) in RC1. rewrite app_nil_r, H4 in RC1.
    exists rs, file, w0, os1, (wst o (file ++ out1) [] last1), os2, (wst o ((file ++ out1) ++ out2) pend2 last2), (vw (qr ++ new1)).
    split; [exact H1|]. split; [exact NW|]. split; [exact R1|]. split; [exact R2|]. split; [apply Forall_app; split; assumption|]. split; [exact RC1|]. split.
    { rewrite P1, H6, map_app. assert (AP : forall ss rs s r, length rs = length ss -> all_positions (ss ++ [s]) (rs ++ [r]) = all_positions ss rs ++ write_positions (snd s) (fst r)).
      { induction ss0 as [|[o1 c1] ss0 IH]; intros [|[os b] rs0] [o2 c2] [os' b'] LE; try discriminate LE; cbn [app all_positions fst snd]; [apply app_nil_r|]. rewrite IH by (cbn in LE; lia). rewrite app_assoc. reflexivity. }
      rewrite AP by (apply (f_equal (@length nat)) in H3; rewrite !map_length in H3; exact H3). cbn [fst snd]. rewrite H5, WP1. reflexivity. }
    split; [exists out2; reflexivity|]. cbn [wst w_dest].
    assert (F1 : file_ok (file ++ out1) (qr ++ new1)) by apply W1. assert (F2 : file_ok ((file ++ out1) ++ out2) ((qr ++ new1) ++ new2)) by apply W2. split.
    - intros tail. destruct (grown_read hash hash_range decompress transpose_decode _ _ tail F1) as (d & R & K). exists d. split; [|exact K].
      rewrite <- fst_all_of, map_length. exact R.
    - intros n N. destruct (cut_read hash hash_range decompress transpose_decode _ _ n F2 N) as (B & C & d & E & EC & R & K & _).
      exists (length (records_of (vw B))), d. 
      assert (RB : firstn (length (records_of (vw B))) (all_written ss ++ written cs ++ written more) = records_of (vw B)).
      { assert (RP : exists t, all_written ss ++ written cs ++ written more = records_of (vw B) ++ t).
        { rewrite app_assoc, <- RC1, <- RC2. unfold pview. rewrite records_app, E, vw_app, records_app, <- app_assoc. eauto. }
        destruct RP as [t ->]. rewrite firstn_app, firstn_all, Nat.sub_diag, firstn_O, app_nil_r. reflexivity. }
      cbv zeta. rewrite RB. split; [apply R; rewrite <- fst_all_of, map_length; lia|]. split; [exact K|].
      intros NN. destruct (split_longer n (qr ++ new1) new2 B C E) as (m & ->).
      + pose proof (layout_bound hash _ _ _ _ (f_layout _ _ _ _ _ F1)) as LB. rewrite Forall_map in LB. eapply Forall_impl; [|exact LB]. cbv beta. intros x X. lia.
      + exact EC.
      + rewrite <- RC1, (vw_app (qr ++ new1) m), records_app, (app_length (records_of (vw (qr ++ new1)))). clear. lia.
  Qed.
End Records.

(** ** Consequences for users *)
Lemma nth_both v i p : nth_error (positions_of v) i = Some p -> exists r, nth_error (records_of v) i = Some r.
Proof.
  intros E. pose proof (zlen_positions v) as ZP. assert (i < length (positions_of v))%nat by (apply nth_error_Some; congruence).
  destruct (nth_error (records_of v) i) eqn:N; [eauto|]. apply nth_error_None in N. unfold zlen in ZP. lia.
Qed.
Lemma nth_none v i : nth_error (records_of v) i = None -> nth_error (positions_of v) i = None.
Proof. intros N. apply nth_error_None in N. apply nth_error_None. pose proof (zlen_positions v) as ZP. unfold zlen in ZP. lia. Qed.
Lemma cursor_next v i : 0 <= i -> cursor_run v [ReadNext] i = [Rec (nth_error (records_of v) (Z.to_nat i)) (nth_error (positions_of v) (Z.to_nat i))].
Proof. intros I. cbn [cursor_run cursor_step]. destruct (nth_error (records_of v) (Z.to_nat i)) eqn:E; [reflexivity|]. rewrite (nth_none _ _ E). reflexivity. Qed.


Section Users.
  Variable hash : list Z -> Z.
  Variable decompress : Z -> list Z -> option (list Z).
  Variable transpose_decode : list Z -> Z -> Z -> option (list Z * list Z).
  Notation reads_as := (reads_as hash decompress transpose_decode).
  Variable file : list Z.
  Variable v : view.
  Hypothesis R : reads_as file v.

  Lemma seek_to_record : StronglySorted pos_lt (positions_of v) -> forall i p, nth_error (positions_of v) i = Some p ->
    forall cs, Forall (call_ok v (zlen file)) cs ->
    exists d, reader_run hash decompress transpose_decode file (cs ++ [SeekToPos p; ReadNext]) NewRecordReader
      = Some (cursor_run v cs 0 ++ [Flag true; Rec (nth_error (records_of v) i) (Some p)], d) /\ rd_ok d = true.
  Proof.
    intros S i p E cs C. destruct (R (cs ++ [SeekToPos p; ReadNext])) as (d & RR & K).
    { apply Forall_app. split; [exact C|]. constructor; [|constructor; [constructor|constructor]]. left.
      apply nth_error_In in E. unfold positions_of in E. apply in_flat_map in E as (c & IC & IP). apply in_map_iff in IP as (j & <- & IJ). cbn [fst snd].
      split; [apply in_map; exact IC|]. unfold zseq in IJ. apply in_map_iff in IJ as (k & <- & _). lia. }
    exists d. split; [|exact K]. rewrite RR. do 2 f_equal. rewrite cursor_app. f_equal.
    change (cursor_run v [SeekToPos p; ReadNext] ?j) with (Flag true :: cursor_run v [ReadNext] (count (fun q => before q p) (positions_of v))).
    rewrite (count_before_nth _ _ _ S E), cursor_next, Nat2Z.id, E by lia. reflexivity.
  Qed.
  Lemma numeric_seek : StronglySorted pos_lt (positions_of v) -> forall n, 0 <= n <= zlen file ->
    forall cs, Forall (call_ok v (zlen file)) cs ->
    (forall i p, nth_error (positions_of v) i = Some p -> n <= numeric p -> 
       (forall j q, (j < i)%nat -> nth_error (positions_of v) j = Some q -> numeric q < n) ->
       exists d, reader_run hash decompress transpose_decode file (cs ++ [SeekNumeric n; ReadNext]) NewRecordReader
         = Some (cursor_run v cs 0 ++ [Flag true; Rec (nth_error (records_of v) i) (Some p)], d) /\ rd_ok d = true) /\
    ((forall j q, nth_error (positions_of v) j = Some q -> numeric q < n) ->
       exists d, reader_run hash decompress transpose_decode file (cs ++ [SeekNumeric n; ReadNext]) NewRecordReader
         = Some (cursor_run v cs 0 ++ [Flag true; Rec None None], d) /\ rd_ok d = true).
  Proof.
    intros S n N cs C. destruct (R (cs ++ [SeekNumeric n; ReadNext])) as (d & RR & K).
    { apply Forall_app. split; [exact C|]. constructor; [exact N|constructor; [constructor|constructor]]. }
    assert (CE : cursor_run v (cs ++ [SeekNumeric n; ReadNext]) 0 = cursor_run v cs 0 ++ Flag true :: cursor_run v [ReadNext] (count (fun q => numeric q <? n) (positions_of v))) by (rewrite cursor_app; reflexivity).
    rewrite CE in RR. clear CE. split.
    - intros i p E NP B. exists d. split; [|exact K]. rewrite RR. do 4 f_equal. rewrite (count_numeric_nth _ _ _ _ S E NP B), cursor_next, Nat2Z.id, E by lia. reflexivity.
    - intros B. exists d. split; [|exact K]. rewrite RR. do 4 f_equal. rewrite count_all.
      + rewrite cursor_next by apply zlen_nonneg. rewrite zlen_positions. unfold zlen. rewrite Nat2Z.id. assert (NN : nth_error (records_of v) (length (records_of v)) = None) by (apply nth_error_None; lia).
        rewrite NN, (nth_none _ _ NN). reflexivity.
      + apply Forall_forall. intros q Q. apply In_nth_error in Q as [j Q]. apply Z.ltb_lt. eapply B, Q.
  Qed.
  Lemma step_backs : forall i, cursor_run v (repeat StepBack (S i)) (Z.of_nat i) = repeat (Flag true) i ++ [Flag false].
  Proof.
    induction i as [|i IH]; [reflexivity|]. cbn [repeat app]. cbn [cursor_run cursor_step]. destruct (Z.eqb_spec (Z.of_nat (S i)) 0); [lia|]. 
    replace (Z.of_nat (S i) - 1) with (Z.of_nat i) by lia. f_equal. exact IH.
  Qed.
  Lemma seek_back cs : Forall (call_ok v (zlen file)) cs ->
    exists i, (i <= length (records_of v))%nat /\
      (exists d, reader_run hash decompress transpose_decode file (cs ++ [ReadNext]) NewRecordReader
         = Some (cursor_run v cs 0 ++ [Rec (nth_error (records_of v) i) (nth_error (positions_of v) i)], d) /\ rd_ok d = true) /\
      (exists d, reader_run hash decompress transpose_decode file (cs ++ [StepBack; ReadNext]) NewRecordReader
         = Some (cursor_run v cs 0 ++ [Flag (0 <? i)%nat; Rec (nth_error (records_of v) (i - 1)) (nth_error (positions_of v) (i - 1))], d) /\ rd_ok d = true) /\
      (exists d, reader_run hash decompress transpose_decode file (cs ++ repeat StepBack (S i)) NewRecordReader
         = Some (cursor_run v cs 0 ++ repeat (Flag true) i ++ [Flag false], d) /\ rd_ok d = true).
  Proof.
    intros C. pose proof (cursor_range v cs 0 ltac:(pose proof (zlen_nonneg (records_of v)); lia)) as CR.
    remember (cursor_after v cs 0) as i0 eqn:EI. assert (E0 : exists i, i0 = Z.of_nat i) by (exists (Z.to_nat i0); lia). destruct E0 as [i Ei]. exists i. subst i0. rewrite Ei in CR.
    split; [unfold zlen in CR; lia|]. split; [|split].
    - destruct (R (cs ++ [ReadNext])) as (d & RR & K); [apply Forall_app; split; [exact C|repeat constructor]|]. exists d. split; [|exact K]. rewrite RR, cursor_app, Ei, cursor_next, Nat2Z.id by lia. reflexivity.
    - destruct (R (cs ++ [StepBack; ReadNext])) as (d & RR & K); [apply Forall_app; split; [exact C|repeat constructor]|]. exists d. split; [|exact K]. rewrite RR, cursor_app, Ei. do 3 f_equal.
      change (cursor_run v [StepBack; ReadNext] (Z.of_nat i)) with (let '(o, j) := cursor_step v StepBack (Z.of_nat i) in o :: cursor_run v [ReadNext] j). cbn [cursor_step]. destruct i as [|i].
      + change (Z.of_nat 0 =? 0) with true. cbv iota. rewrite cursor_next by lia. reflexivity.
      + destruct (Z.eqb_spec (Z.of_nat (S i)) 0); [lia|]. rewrite cursor_next by lia. replace (Z.to_nat (Z.of_nat (S i) - 1)) with (S i - 1)%nat by lia. reflexivity.
    - destruct (R (cs ++ repeat StepBack (S i))) as (d & RR & K).
      { apply Forall_app; split; [exact C|]. apply Forall_forall. intros c IC. apply repeat_spec in IC as ->. constructor. }
      exists d. split; [|exact K]. rewrite RR, cursor_app, Ei, step_backs. reflexivity.
  Qed.
End Users.
