(** Every call on every Chain of a program does what it does to strings. *)
From Verif Require Import Base.Bytes Model.BufferSizer Model.Chain Model.ChainWorld Spec.ChainSpec Proof.ChainHeap Proof.ChainSteps Proof.ChainAppend Proof.ChainAppendChain Proof.ChainRaw Proof.ChainPrepend Proof.ChainPrependChain Proof.ChainRemove Proof.ChainRest Proof.ChainQuery.

Definition refs (cs : list chain) (bl : list Z) : list Z := concat (map cblocks cs) ++ bl.
Definition R (cs : list chain) (bl : list Z) (x : Z) : Z := cnt x (refs cs bl).
Definition OkS (h : heap) (c : chain) : Prop := Ok h c /\ csize c <= SIZE_MAX.
Definition WI (w : world) : Prop := Inv (wheap w) (R (wchains w) (wblocks w)) /\ (forall i, (i < length (wchains w))%nat -> OkS (wheap w) (get w i)).

(** Lists *)
Lemma set_nth_len {A} (x : A) l : forall i, length (set_nth i x l) = length l.
Proof. induction l as [|y l IH]; intros [|i]; cbn [set_nth length]; auto. Qed.
Lemma nth_set_same {A} (x d : A) l : forall i, (i < length l)%nat -> nth i (set_nth i x l) d = x.
Proof. induction l as [|y l IH]; intros [|i] L; cbn [set_nth length nth] in *; try lia; auto. apply IH. lia. Qed.
Lemma nth_set_other {A} (x d : A) l : forall i k, i <> k -> nth k (set_nth i x l) d = nth k l d.
Proof. induction l as [|y l IH]; intros [|i] [|k] N; cbn [set_nth nth]; try reflexivity; try congruence. apply IH. congruence. Qed.
Lemma set_same {A} (d : A) l : forall i, set_nth i (nth i l d) l = l.
Proof. induction l as [|y l IH]; intros [|i]; cbn [set_nth nth]; try reflexivity. f_equal. apply IH. Qed.
Lemma set_set {A} (x y : A) l : forall i, set_nth i x (set_nth i y l) = set_nth i x l.
Proof. induction l as [|z l IH]; intros [|i]; cbn [set_nth]; try reflexivity. f_equal. apply IH. Qed.
Lemma set_comm {A} (x y : A) l : forall i j, i <> j -> set_nth i x (set_nth j y l) = set_nth j y (set_nth i x l).
Proof. induction l as [|z l IH]; intros [|i] [|j] N; cbn [set_nth]; try reflexivity; try congruence. f_equal. apply IH. congruence. Qed.
Lemma map_set {A B} (f : A -> B) x l : forall i, map f (set_nth i x l) = set_nth i (f x) (map f l).
Proof. induction l as [|y l IH]; intros [|i]; cbn [set_nth map]; try reflexivity. f_equal. apply IH. Qed.
Lemma map_del {A B} (f : A -> B) l : forall i, map f (del_nth i l) = del_nth i (map f l).
Proof. induction l as [|y l IH]; intros [|i]; cbn [del_nth map]; try reflexivity. f_equal. apply IH. Qed.
Lemma cnt_del x l : forall k, (k < length l)%nat -> cnt x l = cnt x (del_nth k l) + one (nth k l 0) x.
Proof. induction l as [|y l IH]; intros [|k] L; cbn [length del_nth nth] in *; rewrite ?cnt_cons; try lia. rewrite (IH k) by lia. lia. Qed.
Lemma in_del {A} (x : A) l : forall k, In x (del_nth k l) -> In x l.
Proof. induction l as [|y l IH]; intros [|k]; cbn [del_nth In]; try tauto. intros [->|H]; [now left|right; eauto]. Qed.

Lemma skipn_nth {A} (d : A) l : forall m, (m < length l)%nat -> skipn m l = nth m l d :: skipn (S m) l.
Proof. induction l as [|y l IH]; intros [|m] L; cbn [length] in L; try lia; [reflexivity|]. cbn [skipn nth]. apply IH. lia. Qed.

(** References *)
Lemma R_pos cs bl x : 0 <= R cs bl x. Proof. apply cnt_nonneg. Qed.
Lemma R_set cs bl c x : forall i, (i < length cs)%nat -> R (set_nth i c cs) bl x = R (set_nth i empty_chain cs) bl x + cnt x (cblocks c).
Proof.
  unfold R, refs. intros i L. rewrite !cnt_app. enough (E : cnt x (concat (map cblocks (set_nth i c cs))) = cnt x (concat (map cblocks (set_nth i empty_chain cs))) + cnt x (cblocks c)) by lia.
  revert i L. induction cs as [|d cs IH]; intros [|i] L; cbn [length] in L; try lia; cbn [set_nth map concat]; rewrite !cnt_app.
  - cbn [empty_chain cblocks cnt]. lia.
  - rewrite (IH i) by lia. lia.
Qed.
Lemma R_get cs bl x i : (i < length cs)%nat -> R cs bl x = R (set_nth i empty_chain cs) bl x + cnt x (cblocks (nth i cs empty_chain)).
Proof. intros L. rewrite <- R_set by exact L. now rewrite set_same. Qed.
Lemma R_two cs bl c d x i j : i <> j -> (i < length cs)%nat -> (j < length cs)%nat ->
  R (set_nth j d (set_nth i c cs)) bl x = R (set_nth j empty_chain (set_nth i empty_chain cs)) bl x + cnt x (cblocks c) + cnt x (cblocks d).
Proof.
  intros N LI LJ. rewrite (R_set _ bl d) by now rewrite set_nth_len. rewrite (set_comm empty_chain c) by congruence. rewrite R_set by now rewrite set_nth_len. rewrite (set_comm empty_chain empty_chain) by congruence. lia.
Qed.
Lemma R_get2 cs bl x i j : i <> j -> (i < length cs)%nat -> (j < length cs)%nat ->
  R cs bl x = R (set_nth j empty_chain (set_nth i empty_chain cs)) bl x + cnt x (cblocks (nth i cs empty_chain)) + cnt x (cblocks (nth j cs empty_chain)).
Proof. intros N LI LJ. rewrite <- R_two by assumption. rewrite set_same, set_same. reflexivity. Qed.
Lemma R_in cs bl k x : In x (cblocks (nth k cs empty_chain)) -> 0 < R cs bl x.
Proof.
  intros HI. unfold R. apply cnt_in. unfold refs. apply in_or_app. left. destruct (Nat.lt_ge_cases k (length cs)) as [L|L].
  - apply in_concat. exists (cblocks (nth k cs empty_chain)). split; [|exact HI]. apply in_map. now apply nth_In.
  - rewrite nth_overflow in HI by exact L. destruct HI.
Qed.
Lemma R_in_bl cs bl x : In x bl -> 0 < R cs bl x.
Proof. intros HI. unfold R. apply cnt_in. unfold refs. apply in_or_app. now right. Qed.

Lemma get_CopyTo w i : str (strings_of w) i = content (wheap w) (get w i).
Proof. unfold str, strings_of, get. cbn [chains_]. rewrite <- (CopyTo_content (wheap w)). rewrite <- (map_nth (CopyTo (wheap w))). reflexivity. Qed.
Lemma get_data w k : held (strings_of w) k -> blk_str (strings_of w) k = data (wheap w) (get_block w k).
Proof.
  unfold held, blk_str, strings_of, get_block. cbn [blocks_]. rewrite map_length. intros L. rewrite (nth_indep _ [] (data (wheap w) 0)) by now rewrite map_length. apply map_nth.
Qed.
Lemma there_len w i : there (strings_of w) i <-> (i < length (wchains w))%nat.
Proof. unfold there, strings_of. cbn [chains_]. now rewrite map_length. Qed.
Lemma size_content w i : WI w -> (i < length (wchains w))%nat -> csize (get w i) = zlen (str (strings_of w) i) /\ csize (get w i) <= SIZE_MAX /\ Ok (wheap w) (get w i).
Proof. intros [I OK] L. destruct (OK i L) as [O S]. rewrite get_CopyTo. split; [apply O|]. split; assumption. Qed.

Lemma CopyTo_keep h h' c : (forall x, In x (cblocks c) -> data h' x = data h x) -> CopyTo h' c = CopyTo h c.
Proof. intros K. rewrite !CopyTo_content. now apply content_keep. Qed.
Lemma map_CopyTo_keep h h' cs bl : keeps (R cs bl) h h' -> map (CopyTo h') cs = map (CopyTo h) cs.
Proof.
  intros K. apply map_ext_in. intros c HI. apply CopyTo_keep. intros x HX. apply K. apply cnt_in. unfold refs. apply in_or_app. left. apply in_concat. exists (cblocks c). split; [now apply in_map|exact HX].
Qed.
Lemma map_data_keep h h' cs bl : keeps (R cs bl) h h' -> map (data h') bl = map (data h) bl.
Proof. intros K. apply map_ext_in. intros x HI. apply K. now apply R_in_bl. Qed.
Lemma set_ext {A} (x y : A) l1 l2 : forall i, set_nth i x l1 = set_nth i x l2 -> set_nth i y l1 = set_nth i y l2.
Proof. intros i Q. rewrite <- (set_set y x l1), <- (set_set y x l2). now rewrite Q. Qed.

(** one chain changes *)
Lemma one_chain h cs bl i h' c' s : (i < length cs)%nat -> (forall k, (k < length cs)%nat -> OkS h (nth k cs empty_chain)) -> Post (R (set_nth i empty_chain cs) bl) h h' c' s -> zlen s <= SIZE_MAX ->
  WI {| wheap := h'; wchains := set_nth i c' cs; wblocks := bl |} /\ strings_of {| wheap := h'; wchains := set_nth i c' cs; wblocks := bl |} = put i s (strings_of {| wheap := h; wchains := cs; wblocks := bl |}).
Proof.
  intros L OK (I & OK' & CT & KE) FI. split; [split|].
  - cbn [wheap wchains wblocks]. eapply Inv_ext; [|exact I]. intros x. unfold plus. rewrite (R_set cs bl c') by exact L. reflexivity.
  - cbn [wheap wchains wblocks]. intros k LK. rewrite set_nth_len in LK. unfold get. cbn [wchains]. destruct (Nat.eq_dec i k) as [<-|N].
    + rewrite nth_set_same by exact L. split; [exact OK'|]. rewrite (ok_size _ _ OK'), CT. exact FI.
    + rewrite nth_set_other by exact N. destruct (OK k LK) as [O S]. split; [|exact S]. eapply Ok_keep; [|exact O]. intros x HX. apply KE. apply (R_in _ _ k). now rewrite nth_set_other.
  - unfold strings_of, put. cbn [wheap wchains wblocks chains_ blocks_]. f_equal; [|eapply map_data_keep; exact KE].
    rewrite map_set, CopyTo_content, CT. pose proof (map_CopyTo_keep _ _ _ _ KE) as Q. rewrite !map_set in Q. change (CopyTo h' empty_chain) with (CopyTo h empty_chain) in Q. eapply set_ext. exact Q.
Qed.
(** two chains change *)
Lemma two_chains h cs bl i j h' c' d' s t : i <> j -> (i < length cs)%nat -> (j < length cs)%nat -> (forall k, (k < length cs)%nat -> OkS h (nth k cs empty_chain)) ->
  let G := R (set_nth j empty_chain (set_nth i empty_chain cs)) bl in
  Inv h' (fun x => plus G (cblocks c') x + cnt x (cblocks d')) -> Ok h' c' -> Ok h' d' -> content h' c' = s -> content h' d' = t -> keeps G h h' -> zlen s <= SIZE_MAX -> zlen t <= SIZE_MAX ->
  WI {| wheap := h'; wchains := set_nth j d' (set_nth i c' cs); wblocks := bl |} /\ strings_of {| wheap := h'; wchains := set_nth j d' (set_nth i c' cs); wblocks := bl |} = put j t (put i s (strings_of {| wheap := h; wchains := cs; wblocks := bl |})).
Proof.
  intros N LI LJ OK G I OKC OKD CT DT KE FS FT. unfold G in *. split; [split|].
  - cbn [wheap wchains wblocks]. eapply Inv_ext; [|exact I]. intros x. unfold plus. rewrite (R_two cs bl c' d') by assumption. reflexivity.
  - cbn [wheap wchains wblocks]. intros k LK. rewrite !set_nth_len in LK. unfold get. cbn [wchains]. destruct (Nat.eq_dec j k) as [<-|NJ]; [|destruct (Nat.eq_dec i k) as [<-|NI]].
    + rewrite nth_set_same by now rewrite set_nth_len. split; [exact OKD|]. rewrite (ok_size _ _ OKD), DT. exact FT.
    + rewrite nth_set_other by congruence. rewrite nth_set_same by exact LI. split; [exact OKC|]. rewrite (ok_size _ _ OKC), CT. exact FS.
    + rewrite !nth_set_other by assumption. destruct (OK k LK) as [O S]. split; [|exact S]. eapply Ok_keep; [|exact O]. intros x HX. apply KE. apply (R_in _ _ k). now rewrite !nth_set_other.
  - unfold strings_of, put. cbn [wheap wchains wblocks chains_ blocks_]. f_equal; [|eapply map_data_keep; exact KE].
    rewrite !map_set, !CopyTo_content, CT, DT. pose proof (map_CopyTo_keep _ _ _ _ KE) as Q. rewrite !map_set in Q. change (CopyTo h' empty_chain) with (CopyTo h empty_chain) in Q.
    apply (set_ext _ t) in Q. rewrite (set_comm t) in Q by congruence. rewrite (set_comm t (CopyTo h empty_chain)) in Q by congruence. apply (set_ext _ s) in Q. rewrite (set_comm s t) in Q by congruence. rewrite (set_comm s t) in Q by congruence. exact Q.
Qed.
(** only the heap and the block variables change *)
Lemma only_blocks h cs bl h' bl' : (forall k, (k < length cs)%nat -> OkS h (nth k cs empty_chain)) -> Inv h' (R cs bl') -> keeps (R cs []) h h' ->
  WI {| wheap := h'; wchains := cs; wblocks := bl' |} /\ strings_of {| wheap := h'; wchains := cs; wblocks := bl' |} = {| chains_ := chains_ (strings_of {| wheap := h; wchains := cs; wblocks := bl |}); blocks_ := map (data h') bl' |}.
Proof.
  intros OK I KE. split; [split|].
  - exact I.
  - cbn [wheap wchains wblocks]. intros k LK. unfold get. cbn [wchains]. destruct (OK k LK) as [O S]. split; [|exact S]. eapply Ok_keep; [|exact O]. intros x HX. apply KE. now apply (R_in _ _ k).
  - unfold strings_of. cbn [wheap wchains wblocks chains_ blocks_]. f_equal. eapply map_CopyTo_keep. exact KE.
Qed.

Lemma AppendChain_src E share h c src opt h' c' src' : AppendChain E share h c src opt = Some (h', c', src') -> src' = src \/ csize src' = 0.
Proof.
  unfold AppendChain, check. destruct (cblocks src) as [|f rest].
  - destruct (Append _ _ _ _ _) as [[? ?]|]; [|discriminate]. intros H. injection H as _ _ H. now left.
  - destruct (_ <=? _); [|discriminate]. destruct (AppendChain_first _ _ _ _ _ _) as [[[? ?] skip]|]; [|discriminate]. destruct (AppendBlocks _ _ _ _). destruct share; intros H; injection H as _ _ <-; [now left|right; reflexivity].
Qed.
Lemma PrependChain_src E share h c src opt h' c' src' : PrependChain E share h c src opt = Some (h', c', src') -> src' = src \/ csize src' = 0.
Proof.
  unfold PrependChain, check. destruct (cblocks src) as [|f rest].
  - destruct (Prepend _ _ _ _ _) as [[? ?]|]; [|discriminate]. intros H. injection H as _ _ H. now left.
  - cbv zeta. destruct (_ <=? _); [|discriminate]. destruct (PrependChain_last _ _ _ _ _ _) as [[[? ?] skip]|]; [|discriminate]. destruct (PrependBlocks _ _ _ _). destruct share; intros H; injection H as _ _ <-; [now left|right; reflexivity].
Qed.

Lemma ShareBlock_ok h Q b off len : Inv h Q -> 0 < Q b -> 0 <= off -> 0 <= len -> off + len <= size h b ->
  exists n h', ShareBlock h b off len = (n, h') /\ Inv h' (fun x => Q x + one n x) /\ keeps Q h h' /\ data h' n = ztake len (zdrop off (data h b)).
Proof.
  intros I QB O0 L0 OL. unfold ShareBlock. destruct (Z.eqb_spec (size h b) len) as [EQ|NE].
  - destruct (Inv_Ref h Q b I QB) as (I1 & D1). exists b, (Ref h b). split; [reflexivity|]. split; [exact I1|]. split; [intros x _; apply D1|]. rewrite D1.
    replace off with 0 by lia. rewrite zdrop_0. symmetry. apply ztake_all. fold (size h b). lia.
  - assert (W : exists t o, (match find_wrap h b with Some (t, o) => (t, o + off) | None => (b, off) end) = (t, o) /\ 0 < rc (blk h t) /\ 0 <= o /\ o + len <= size h t /\ ztake len (zdrop o (data h t)) = ztake len (zdrop off (data h b))).
    { destruct (find_wrap h b) as [[t o]|] eqn:FW.
      - apply find_wrap_in in FW. destruct (inv_wrap _ _ I _ _ _ FW) as (W1 & W2 & W3 & W4 & W5). exists t, (o + off). split; [reflexivity|].
        assert (TR : 0 < rc (blk h t)). { pose proof (inv_rc _ _ I t) as K. assert (0 < cnt t (targets h)) by (apply cnt_in; unfold targets; apply in_map_iff; exists (b, (t, o)); auto). pose proof (inv_pos _ _ I t). lia. }
        split; [exact TR|]. split; [lia|]. split; [lia|]. rewrite W5. rewrite zdrop_ztake, ztake_ztake, zdrop_zdrop by lia. f_equal; [lia|]. f_equal. lia.
      - exists b, off. split; [reflexivity|]. destruct (inv_live _ _ _ I QB). auto. }
    destruct W as (t & o & -> & TR & O1 & L1 & D1). destruct (Inv_Ref_rc h Q t I TR) as (I1 & D2).
    destruct (Inv_wrapper (Ref h t) Q t o len I1 (inv_pos _ _ I) O1 L0) as (h2 & E2 & I2 & D3 & RN & DN); [unfold size; rewrite D2; exact L1|].
    rewrite E2. eexists _, h2. split; [reflexivity|]. split; [exact I2|]. split; [|rewrite DN, D2; exact D1].
    intros x P. rewrite D3, D2; [reflexivity|]. intros ->. rewrite RN in P. lia.
Qed.

Lemma opt_of opt : options_ok opt -> opt_ok opt. Proof. intros (A & B & C). constructor; assumption. Qed.

Section X.
Context (E : env) (EO : env_ok E).

Lemma exec_ok w o : WI w -> allowed o (strings_of w) -> exists w', exec E w o = Some w' /\ WI w' /\ effect o (strings_of w) (strings_of w').
Proof.
  intros W A. pose proof W as [I OK]. destruct w as [h cs bl]. cbn [wheap wchains wblocks] in *. unfold get in OK. cbn [wchains] in OK.
  set (w := {| wheap := h; wchains := cs; wblocks := bl |}) in *.
  assert (TH : forall i, there (strings_of w) i -> (i < length cs)%nat) by (intros i; apply there_len).
  assert (SC : forall i, (i < length cs)%nat -> csize (nth i cs empty_chain) = zlen (str (strings_of w) i) /\ csize (nth i cs empty_chain) <= SIZE_MAX /\ Ok h (nth i cs empty_chain)) by (intros i L; apply (size_content w i W L)).
  assert (CT : forall i, content h (nth i cs empty_chain) = str (strings_of w) i) by (intros i; symmetry; apply (get_CopyTo w i)).
  (* a call on one chain *)
  assert (ONE : forall i (r : option (heap * chain)) s, (i < length cs)%nat -> (exists h' c', r = Some (h', c') /\ Post (R (set_nth i empty_chain cs) bl) h h' c' s) -> zlen s <= SIZE_MAX ->
    exists w', option_map (with_chain w i) r = Some w' /\ WI w' /\ strings_of w' = put i s (strings_of w)).
  { intros i r s L (h' & c' & -> & PO) FI. eexists. split; [reflexivity|]. apply (one_chain h cs bl i h' c' s); assumption. }
  assert (INV1 : forall i, (i < length cs)%nat -> Inv h (plus (R (set_nth i empty_chain cs) bl) (cblocks (nth i cs empty_chain)))).
  { intros i L. eapply Inv_ext; [|exact I]. intros x. unfold plus. now apply R_get. }
  assert (INV2 : forall i j, i <> j -> (i < length cs)%nat -> (j < length cs)%nat -> Inv h (fun x => plus (R (set_nth j empty_chain (set_nth i empty_chain cs)) bl) (cblocks (nth i cs empty_chain)) x + cnt x (cblocks (nth j cs empty_chain)))).
  { intros i j N LI LJ. eapply Inv_ext; [|exact I]. intros x. unfold plus. now apply R_get2. }
  assert (BLK : forall k, held (strings_of w) k -> (k < length bl)%nat /\ blk_str (strings_of w) k = data h (get_block w k) /\ 0 < R cs bl (get_block w k)).
  { intros k H. pose proof H as L. unfold held, strings_of in L. cbn [blocks_ w wheap wblocks] in L. rewrite map_length in L. split; [exact L|]. split; [now apply get_data|]. apply R_in_bl. apply nth_In. exact L. }
  assert (RP : forall cs bl x, 0 <= R cs bl x) by (intros; apply R_pos).
  destruct o as [|i s opt|i s opt|i s opt|i s opt|i mn rec mx opt fill|i mn rec mx opt fill|share i j opt|share i j opt|mv i k opt|mv i k opt|i n opt|i n opt|i|i|i j|i j|i j|i|s|i off len|k|k]; cbn [exec allowed effect] in *; cbn [w wheap wchains wblocks get get_block] in *; unfold fits in *.
  - (* New *)
    eexists. split; [reflexivity|]. split; [split|].
    + cbn [wheap wchains wblocks]. eapply Inv_ext; [|exact I]. intros x. unfold R, refs. rewrite map_app, concat_app. cbn [map concat empty_chain cblocks]. now rewrite !app_nil_r.
    + cbn [wheap wchains wblocks]. intros i L. unfold get. cbn [wchains]. rewrite app_length in L. cbn [length] in L. destruct (Nat.lt_ge_cases i (length cs)) as [LT|GE]; [rewrite app_nth1 by exact LT; now apply OK|].
      rewrite app_nth2 by exact GE. replace (i - length cs)%nat with 0%nat by lia. cbn [nth]. split; [|unfold SIZE_MAX; cbn; lia]. constructor; [reflexivity|intros _; unfold kMaxShortDataSize; cbn; lia|]. apply Cok_nil; [reflexivity|now left].
    + unfold strings_of. cbn [wheap wchains wblocks chains_ blocks_]. now rewrite map_app.
  - (* Append *)
    destruct A as (T & OO & FI). apply TH in T. destruct (SC i T) as (S1 & S2 & S3). unfold get. change (wchains w) with cs. apply ONE; [exact T| |rewrite zlen_app; lia].
    rewrite <- CT. apply Append_ok; auto using opt_of. lia.
  - destruct A as (T & OO & FI). apply TH in T. destruct (SC i T) as (S1 & S2 & S3). unfold get. change (wchains w) with cs. apply ONE; [exact T| |rewrite zlen_app; lia].
    rewrite <- CT. apply Prepend_ok; auto using opt_of. lia.
  - destruct A as (T & OO & FI). apply TH in T. destruct (SC i T) as (S1 & S2 & S3). unfold get. change (wchains w) with cs. apply ONE; [exact T| |rewrite zlen_app; lia].
    rewrite <- CT. apply AppendExternal_ok; auto using opt_of. lia.
  - destruct A as (T & OO & FI). apply TH in T. destruct (SC i T) as (S1 & S2 & S3). unfold get. change (wchains w) with cs. apply ONE; [exact T| |rewrite zlen_app; lia].
    rewrite <- CT. apply PrependExternal_ok; auto using opt_of. lia.
  - (* AppendBuffer *)
    destruct A as (T & OO & MN & MC & FI & FL). apply TH in T. destruct (SC i T) as (S1 & S2 & S3). unfold get. change (wchains w) with cs.
    destruct (AppendBuffer_ok E EO _ (RP _ _) h (nth i cs empty_chain) mn rec mx opt fill (opt_of _ OO) (INV1 i T) S3 MN MC ltac:(lia) FL) as (n & h' & c' & E1 & NB & PO). rewrite E1.
    pose proof (AppendBuffer_size _ _ _ _ _ _ _ _ _ _ _ S2 E1) as S4. rewrite CT in PO. eexists. split; [reflexivity|].
    destruct (one_chain h cs bl i h' c' _ T OK PO) as (W1 & W2). { destruct PO as (_ & O2 & C2 & _). rewrite <- C2, <- (ok_size _ _ O2). exact S4. }
    split; [exact W1|]. exists n. split; [exact NB|exact W2].
  - destruct A as (T & OO & MN & MC & FI & FL). apply TH in T. destruct (SC i T) as (S1 & S2 & S3). unfold get. change (wchains w) with cs.
    destruct (PrependBuffer_ok E EO _ (RP _ _) h (nth i cs empty_chain) mn rec mx opt fill (opt_of _ OO) (INV1 i T) S3 MN MC ltac:(lia) FL) as (n & h' & c' & E1 & NB & PO). rewrite E1.
    pose proof (PrependBuffer_size _ _ _ _ _ _ _ _ _ _ _ S2 E1) as S4. rewrite CT in PO. eexists. split; [reflexivity|].
    destruct (one_chain h cs bl i h' c' _ T OK PO) as (W1 & W2). { destruct PO as (_ & O2 & C2 & _). rewrite <- C2, <- (ok_size _ _ O2). exact S4. }
    split; [exact W1|]. exists n. split; [exact NB|exact W2].
  - (* AppendChain *)
    destruct A as (T & T' & N & OO & FI). apply TH in T. apply TH in T'. destruct (SC i T) as (S1 & S2 & S3). destruct (SC j T') as (P1 & P2 & P3). unfold get. change (wchains w) with cs.
    destruct (AppendChain_ok E EO share _ h (nth i cs empty_chain) (nth j cs empty_chain) opt (RP _ _) (opt_of _ OO) (INV2 i j N T T') S3 P3 ltac:(lia)) as (h' & c' & d' & E1 & I1 & O1 & O2 & C1 & K1 & SH). rewrite E1.
    rewrite !CT in C1. destruct (two_chains h cs bl i j h' c' d' _ (content h' d') N T T' OK I1 O1 O2 C1 eq_refl K1) as (W1 & W2).
    { rewrite zlen_app. lia. } { rewrite <- (ok_size _ _ O2). destruct (AppendChain_src _ _ _ _ _ _ _ _ _ E1) as [->|Q0]; [exact P2|rewrite Q0; unfold SIZE_MAX; lia]. }
    eexists. split; [reflexivity|]. split; [exact W1|]. exists (content h' d'). split; [|exact W2]. intros Q. destruct (SH Q) as (-> & Q2). rewrite Q2. apply CT.
  - destruct A as (T & T' & N & OO & FI). apply TH in T. apply TH in T'. destruct (SC i T) as (S1 & S2 & S3). destruct (SC j T') as (P1 & P2 & P3). unfold get. change (wchains w) with cs.
    destruct (PrependChain_ok E EO share _ h (nth i cs empty_chain) (nth j cs empty_chain) opt (RP _ _) (opt_of _ OO) (INV2 i j N T T') S3 P3 ltac:(lia)) as (h' & c' & d' & E1 & I1 & O1 & O2 & C1 & K1 & SH). rewrite E1.
    rewrite !CT in C1. destruct (two_chains h cs bl i j h' c' d' _ (content h' d') N T T' OK I1 O1 O2 C1 eq_refl K1) as (W1 & W2).
    { rewrite zlen_app. lia. } { rewrite <- (ok_size _ _ O2). destruct (PrependChain_src _ _ _ _ _ _ _ _ _ E1) as [->|Q0]; [exact P2|rewrite Q0; unfold SIZE_MAX; lia]. }
    eexists. split; [reflexivity|]. split; [exact W1|]. exists (content h' d'). split; [|exact W2]. intros Q. destruct (SH Q) as (-> & Q2). rewrite Q2. apply CT.
  - (* AppendBlock *)
    destruct A as (T & HK & OO & BO & FI). apply TH in T. destruct (SC i T) as (S1 & S2 & S3). destruct (BLK k HK) as (LK & DK & RK). rewrite DK in *. unfold get. change (wchains w) with cs. fold w. set (b := get_block w k) in *.
    destruct mv.
    + destruct (AppendRawBlock_ok E EO (R (set_nth i empty_chain cs) (del_nth k bl)) (RP _ _) h (nth i cs empty_chain) b opt (opt_of _ OO) BO) as (h' & c' & E1 & PO); [|exact S3|unfold size; lia|].
      { eapply Inv_ext; [|exact I]. intros x. unfold plus. rewrite (R_get cs bl x i T). unfold R, refs. rewrite !cnt_app. rewrite (cnt_del x bl k LK). fold (get_block w k). fold b. unfold b, get_block. cbn [w wblocks]. lia. }
      rewrite E1, CT in *. eexists. split; [reflexivity|]. destruct (one_chain h cs (del_nth k bl) i h' c' _ T OK PO) as (W1 & W2); [rewrite zlen_app; lia|]. split; [exact W1|].
      etransitivity; [exact W2|]. unfold put, release, strings_of. cbn [wheap wchains wblocks chains_ blocks_]. now rewrite map_del.
    + destruct (Inv_Ref h _ b I RK) as (I1 & D1).
      destruct (AppendRawBlock_ok E EO (R (set_nth i empty_chain cs) bl) (RP _ _) (Ref h b) (nth i cs empty_chain) b opt (opt_of _ OO)) as (h' & c' & E1 & PO).
      { unfold size. rewrite D1. exact BO. } { eapply Inv_ext; [|exact I1]. intros x. unfold plus. now rewrite (R_get cs bl x i T). } { eapply Ok_keep; [|exact S3]. auto. } { unfold size. rewrite D1. lia. }
      rewrite (content_keep h) in PO by auto. rewrite CT, D1 in PO. assert (PO' : Post (R (set_nth i empty_chain cs) bl) h h' c' (str (strings_of w) i ++ data h b)).
      { destruct PO as (A1 & A2 & A3 & A4). split; [exact A1|]. split; [exact A2|]. split; [exact A3|]. intros x P. rewrite (A4 x P). apply D1. }
      apply ONE; [exact T| |rewrite zlen_app; lia]. eauto.
  - destruct A as (T & HK & OO & BO & FI). apply TH in T. destruct (SC i T) as (S1 & S2 & S3). destruct (BLK k HK) as (LK & DK & RK). rewrite DK in *. unfold get. change (wchains w) with cs. fold w. set (b := get_block w k) in *.
    destruct mv.
    + destruct (PrependRawBlock_ok E EO (R (set_nth i empty_chain cs) (del_nth k bl)) (RP _ _) h (nth i cs empty_chain) b opt (opt_of _ OO) BO) as (h' & c' & E1 & PO); [|exact S3|unfold size; lia|].
      { eapply Inv_ext; [|exact I]. intros x. unfold plus. rewrite (R_get cs bl x i T). unfold R, refs. rewrite !cnt_app. rewrite (cnt_del x bl k LK). fold (get_block w k). fold b. unfold b, get_block. cbn [w wblocks]. lia. }
      rewrite E1, CT in *. eexists. split; [reflexivity|]. destruct (one_chain h cs (del_nth k bl) i h' c' _ T OK PO) as (W1 & W2); [rewrite zlen_app; lia|]. split; [exact W1|].
      etransitivity; [exact W2|]. unfold put, release, strings_of. cbn [wheap wchains wblocks chains_ blocks_]. now rewrite map_del.
    + destruct (Inv_Ref h _ b I RK) as (I1 & D1).
      destruct (PrependRawBlock_ok E EO (R (set_nth i empty_chain cs) bl) (RP _ _) (Ref h b) (nth i cs empty_chain) b opt (opt_of _ OO)) as (h' & c' & E1 & PO).
      { unfold size. rewrite D1. exact BO. } { eapply Inv_ext; [|exact I1]. intros x. unfold plus. now rewrite (R_get cs bl x i T). } { eapply Ok_keep; [|exact S3]. auto. } { unfold size. rewrite D1. lia. }
      rewrite (content_keep h) in PO by auto. rewrite CT, D1 in PO. assert (PO' : Post (R (set_nth i empty_chain cs) bl) h h' c' (data h b ++ str (strings_of w) i)).
      { destruct PO as (A1 & A2 & A3 & A4). split; [exact A1|]. split; [exact A2|]. split; [exact A3|]. intros x P. rewrite (A4 x P). apply D1. }
      apply ONE; [exact T| |rewrite zlen_app; lia]. eauto.
  - (* RemoveSuffix *)
    destruct A as (T & OO & NB). apply TH in T. destruct (SC i T) as (S1 & S2 & S3). unfold get. change (wchains w) with cs. apply ONE; [exact T| |rewrite zlen_ztake; lia].
    rewrite <- CT. apply RemoveSuffix_ok; auto using opt_of. lia.
  - destruct A as (T & OO & NB). apply TH in T. destruct (SC i T) as (S1 & S2 & S3). unfold get. change (wchains w) with cs. apply ONE; [exact T| |rewrite zlen_zdrop; lia].
    rewrite <- CT. apply RemovePrefix_ok; auto using opt_of. lia.
  - (* Clear *)
    apply TH in A. destruct (SC i A) as (S1 & S2 & S3). unfold get. change (wchains w) with cs. destruct (Clear_ok _ (RP _ _) h _ (INV1 i A) S3) as (h' & c' & E1 & PO). rewrite E1.
    eexists. split; [reflexivity|]. apply (one_chain h cs bl i h' c' []); auto. change (zlen (@nil Z)) with 0. unfold SIZE_MAX. lia.
  - (* Destroy *)
    apply TH in A. destruct (SC i A) as (S1 & S2 & S3). unfold get. change (wchains w) with cs. destruct (Destroy_ok _ (RP _ _) h _ (INV1 i A)) as (I1 & K1).
    eexists. split; [reflexivity|]. apply (one_chain h cs bl i _ empty_chain []); auto; [|change (zlen (@nil Z)) with 0; unfold SIZE_MAX; lia].
    split; [eapply Inv_ext; [|exact I1]; intros x; unfold plus; cbn [empty_chain cblocks cnt]; lia|]. split; [|split; [reflexivity|exact K1]].
    constructor; [reflexivity|intros _; unfold kMaxShortDataSize; cbn; lia|]. apply Cok_nil; [reflexivity|now left].
  - (* Assign *)
    destruct A as (T & T' & N). apply TH in T. apply TH in T'. destruct (SC i T) as (S1 & S2 & S3). destruct (SC j T') as (P1 & P2 & P3). unfold get. change (wchains w) with cs.
    destruct (Assign_ok _ (RP _ _) h (nth i cs empty_chain) (nth j cs empty_chain) (INV2 i j N T T') P3) as (h' & c' & E1 & I1 & O1 & O2 & C1 & C2 & K1). rewrite E1. rewrite CT in C1, C2.
    destruct (two_chains h cs bl i j h' c' (nth j cs empty_chain) _ _ N T T' OK I1 O1 O2 C1 C2 K1) as (W1 & W2); [lia|lia|].
    assert (SJ : set_nth j (nth j cs empty_chain) (set_nth i c' cs) = set_nth i c' cs).
    { rewrite <- (nth_set_other c' empty_chain cs i j N). apply set_same. }
    rewrite SJ in *. eexists. split; [reflexivity|]. split; [exact W1|]. etransitivity; [exact W2|]. unfold put. cbn [chains_ blocks_]. f_equal.
    unfold str. rewrite <- (nth_set_other (nth j (chains_ (strings_of w)) []) [] (chains_ (strings_of w)) i j N) at 1. rewrite set_comm by congruence. rewrite set_comm by congruence. apply set_same.
  - (* Move *)
    destruct A as (T & T' & N). apply TH in T. apply TH in T'. destruct (SC i T) as (S1 & S2 & S3). destruct (SC j T') as (P1 & P2 & P3). unfold get. change (wchains w) with cs. unfold MoveAssign.
    destruct (Inv_UnrefBlocks (cblocks (nth i cs empty_chain)) h (fun x => R (set_nth j empty_chain (set_nth i empty_chain cs)) bl x + cnt x (cblocks (nth j cs empty_chain)))) as (I1 & K1).
    { eapply Inv_ext; [|exact (INV2 i j N T T')]. intros x. unfold plus. lia. } { intros x. pose proof (cnt_nonneg x (cblocks (nth j cs empty_chain))). specialize (RP (set_nth j empty_chain (set_nth i empty_chain cs)) bl x). lia. }
    set (h' := UnrefBlocks h _) in *. assert (KJ : forall x, In x (cblocks (nth j cs empty_chain)) -> data h' x = data h x).
    { intros x HI. apply K1. apply cnt_in in HI. specialize (RP (set_nth j empty_chain (set_nth i empty_chain cs)) bl x). lia. }
    eexists. split; [reflexivity|]. apply (two_chains h cs bl i j h' (nth j cs empty_chain) empty_chain); auto.
    + eapply Inv_ext; [|exact I1]. intros x. unfold plus. cbn [empty_chain cblocks cnt]. lia.
    + now apply (Ok_keep h).
    + constructor; [reflexivity|intros _; unfold kMaxShortDataSize; cbn; lia|]. apply Cok_nil; [reflexivity|now left].
    + rewrite (content_keep h) by exact KJ. apply CT.
    + eapply keeps_le; [|exact K1]. intros x. cbv beta. pose proof (cnt_nonneg x (cblocks (nth j cs empty_chain))). lia.
    + lia.
    + change (zlen (@nil Z)) with 0. unfold SIZE_MAX. lia.
  - (* Swap *)
    destruct A as (T & T' & N). apply TH in T. apply TH in T'. destruct (SC i T) as (S1 & S2 & S3). destruct (SC j T') as (P1 & P2 & P3). unfold get. change (wchains w) with cs.
    eexists. split; [reflexivity|]. apply (two_chains h cs bl i j h (nth j cs empty_chain) (nth i cs empty_chain)); auto; try lia; try apply keeps_refl.
    eapply Inv_ext; [|exact (INV2 i j N T T')]. intros x. unfold plus. lia.
  - (* Flatten *)
    destruct A as (T & FI). apply TH in T. destruct (SC i T) as (S1 & S2 & S3). unfold get. change (wchains w) with cs.
    destruct (Flatten_ok E EO _ (RP _ _) h _ (INV1 i T) S3 ltac:(lia)) as (h' & c' & E1 & PO & _). rewrite CT in PO.
    destruct (ONE i (Flatten E h (nth i cs empty_chain)) (str (strings_of w) i) T ltac:(eauto) ltac:(lia)) as (w' & E2 & W1 & W2). exists w'. split; [exact E2|]. split; [exact W1|].
    rewrite W2. unfold put, str. rewrite set_same. now destruct (strings_of w).
  - (* NewBlock *)
    destruct (external_step h _ s I) as (h' & E1 & I1 & RN & D1 & DN). rewrite E1. eexists. split; [reflexivity|].
    assert (KE : keeps (R cs bl) h h') by (eapply fresh_keeps; eassumption).
    destruct (only_blocks h cs bl h' (bl ++ [nxt h]) OK) as (W1 & W2).
    + eapply Inv_ext; [|exact I1]. intros x. unfold R, refs. rewrite !cnt_app, cnt_one. lia.
    + eapply keeps_le; [|exact KE]. intros x. unfold R, refs. rewrite !cnt_app. cbn [cnt]. pose proof (cnt_nonneg x bl). lia.
    + split; [exact W1|]. etransitivity; [exact W2|]. unfold hold. cbn [chains_ blocks_]. f_equal. rewrite map_app. cbn [map]. rewrite DN. f_equal. unfold strings_of. cbn [blocks_ w wheap wblocks]. eapply map_data_keep. exact KE.
  - (* Pin *)
    destruct A as (T & OB & LB). apply TH in T. destruct (SC i T) as (S1 & S2 & S3). unfold get. change (wchains w) with cs. set (c := nth i cs empty_chain) in *.
    destruct (BlockAndCharIndex_ok h c off S3 S2 ltac:(lia)) as (k & j & E1 & KB & JB & LO). rewrite E1.
    assert (GEN : forall n h' m, Inv h' (fun x => R cs bl x + one n x) -> keeps (R cs bl) h h' -> 0 <= m <= len -> (0 < len -> 0 < m) -> data h' n = ztake m (zdrop off (str (strings_of w) i)) ->
      exists w', Some {| wheap := h'; wchains := cs; wblocks := bl ++ [n] |} = Some w' /\ WI w' /\ exists m, 0 <= m <= len /\ (0 < len -> 0 < m) /\ strings_of w' = hold (ztake m (zdrop off (str (strings_of w) i))) (strings_of w)).
    { intros n h' m I1 KE MB M0 DN. eexists. split; [reflexivity|]. destruct (only_blocks h cs bl h' (bl ++ [n]) OK) as (W1 & W2).
      - eapply Inv_ext; [|exact I1]. intros x. unfold R, refs. rewrite !cnt_app, cnt_one. lia.
      - eapply keeps_le; [|exact KE]. intros x. unfold R, refs. rewrite !cnt_app. cbn [cnt]. pose proof (cnt_nonneg x bl). lia.
      - split; [exact W1|]. exists m. split; [exact MB|]. split; [exact M0|]. etransitivity; [exact W2|]. unfold hold. cbn [chains_ blocks_]. f_equal. rewrite map_app. cbn [map]. rewrite DN. f_equal. unfold strings_of. cbn [blocks_ w wheap wblocks]. eapply map_data_keep. exact KE. }
    destruct (cblocks c) as [|b0 rest] eqn:EB.
    + destruct (external_step h _ (ztake len (zdrop off (short_data c))) I) as (h' & E2 & I1 & RN & D1 & DN). rewrite E2. apply (GEN _ _ len I1); auto; [eapply fresh_keeps; eassumption|lia|].
      rewrite DN, <- CT. fold c. now rewrite (content_short h c EB).
    + assert (NE : cblocks c <> []) by now rewrite EB. assert (VE : views h c = map (data h) (cblocks c)) by (unfold views; rewrite EB; reflexivity).
      assert (KL : (Z.to_nat k < length (cblocks c))%nat) by (rewrite VE in KB; unfold zlen in KB; rewrite map_length in KB; lia).
      rewrite (views_nth h c _ NE KL) in JB. rewrite <- EB. set (b := nth (Z.to_nat k) (cblocks c) 0) in *. fold (size h b) in JB.
      assert (RB : 0 < R cs bl b) by (apply (R_in cs bl i); apply nth_In; exact KL).
      destruct (ShareBlock_ok h _ b j (Z.min len (size h b - j)) I RB) as (n & h' & E2 & I1 & K1 & DN); [lia|lia|lia|]. rewrite E2.
      apply (GEN n h' (Z.min len (size h b - j)) I1 K1); [lia|lia|]. rewrite DN, <- CT. fold c. rewrite (content_flat h c NE).
      rewrite VE, concat_views in LO. rewrite <- (firstn_skipn (Z.to_nat k) (cblocks c)), flat_app. rewrite zdrop_app_r by lia. replace (off - zlen (flat h (firstn (Z.to_nat k) (cblocks c)))) with j by lia.
      assert (SK : skipn (Z.to_nat k) (cblocks c) = b :: skipn (S (Z.to_nat k)) (cblocks c)).
      { now apply skipn_nth. }
      rewrite SK, flat_cons. rewrite zdrop_app_l by (fold (size h b); lia). rewrite ztake_app_l; [reflexivity|]. rewrite zlen_zdrop. fold (size h b). lia.
  - (* CopyBlock *)
    destruct (BLK k A) as (LK & DK & RK). fold w. set (b := get_block w k) in *. destruct (Inv_Ref h _ b I RK) as (I1 & D1). eexists. split; [reflexivity|].
    destruct (only_blocks h cs bl (Ref h b) (bl ++ [b]) OK) as (W1 & W2).
    + eapply Inv_ext; [|exact I1]. intros x. unfold R, refs. rewrite !cnt_app, cnt_one. lia.
    + intros x _. apply D1.
    + split; [exact W1|]. etransitivity; [exact W2|]. unfold hold. cbn [chains_ blocks_]. f_equal. rewrite map_app. cbn [map]. rewrite D1, DK. f_equal. unfold strings_of. cbn [blocks_ w wheap wblocks]. apply map_ext. exact D1.
  - (* DropBlock *)
    destruct (BLK k A) as (LK & DK & RK). fold w. set (b := get_block w k) in *.
    destruct (Inv_Unref h (R cs (del_nth k bl)) b) as (I1 & K1); [|intros x; apply R_pos|].
    { eapply Inv_ext; [|exact I]. intros x. unfold R, refs. rewrite !cnt_app. rewrite (cnt_del x bl k LK). unfold b, get_block. cbn [w wblocks]. lia. }
    eexists. split; [reflexivity|]. destruct (only_blocks h cs bl (Unref h b) (del_nth k bl) OK I1) as (W1 & W2).
    + eapply keeps_le; [|exact K1]. intros x. unfold R, refs. rewrite !cnt_app. cbn [cnt]. pose proof (cnt_nonneg x (del_nth k bl)). lia.
    + split; [exact W1|]. etransitivity; [exact W2|]. unfold release, strings_of. cbn [chains_ blocks_ w wheap wchains wblocks]. f_equal. rewrite <- map_del. eapply map_data_keep. exact K1.
Qed.
End X.

Lemma env_of E : platform_ok E -> env_ok E.
Proof. intros (A & B). constructor; [exact A|intros n m M; now destruct (B n m M)|intros n m M; now destruct (B n m M)]. Qed.
Lemma WI_start : WI start.
Proof.
  split; [|intros i L; cbn in L; lia]. constructor; cbn [start wheap wchains wblocks empty_heap nxt blk wraps]; try (intros; cbn; lia); try constructor; try easy.
Qed.
Lemma reachable_WI E w : platform_ok E -> reachable E w -> WI w.
Proof.
  intros P H. induction H as [|w o w' H IH A X]; [apply WI_start|]. destruct (exec_ok E (env_of E P) w o IH A) as (w2 & X2 & W2 & _). congruence.
Qed.

(** Nothing is left when nothing is used *)
Lemma nothing_left h : Inv h (fun _ => 0) -> forall x, rc (blk h x) = 0.
Proof.
  intros I. assert (NW : wraps h = []).
  { enough (NO : forall n w t, In (w, t) (wraps h) -> (Z.to_nat (nxt h - w) <= n)%nat -> False).
    { destruct (wraps h) as [|[w t] l] eqn:EW; [reflexivity|]. exfalso. eapply (NO _ w t); [now left|apply Nat.le_refl]. }
    induction n as [|n IH]; intros w [i o] HI LE.
    - destruct (inv_wrap _ _ I _ _ _ HI) as (L & _). destruct (Z.lt_ge_cases w (nxt h)) as [|G]; [lia|]. destruct (inv_new _ _ I w G). lia.
    - destruct (inv_wrap _ _ I _ _ _ HI) as (L & _). assert (LT : w < nxt h). { destruct (Z.lt_ge_cases w (nxt h)) as [|G]; [assumption|]. destruct (inv_new _ _ I w G). lia. }
      pose proof (inv_rc _ _ I w) as RC. assert (TI : In w (targets h)) by (apply cnt_in; rewrite <- (Z.add_0_l (cnt w (targets h))), <- RC; exact L). unfold targets in TI. apply in_map_iff in TI as ([w2 [i2 o2]] & EQ & HI2). cbn [fst snd] in EQ. subst i2.
      pose proof (inv_less _ _ I _ _ _ HI2). apply (IH w2 (w, o2) HI2). lia. }
  intros x. rewrite (inv_rc _ _ I x). unfold targets. rewrite NW. reflexivity.
Qed.
Lemma destroy_blocks E w i w' k : exec E w (Destroy_ i) = Some w' -> length (wchains w') = length (wchains w) /\ wblocks w' = wblocks w /\ (k = i \/ cblocks (get w k) = [] -> cblocks (get w' k) = []).
Proof.
  cbn [exec]. intros [= <-]. unfold with_chain, get. cbn [fst snd wheap wchains wblocks]. split; [apply set_nth_len|]. split; [reflexivity|]. intros Q.
  destruct (Nat.lt_ge_cases k (length (wchains w))) as [L|G]; [|rewrite nth_overflow by (rewrite set_nth_len; exact G); reflexivity].
  destruct (Nat.eq_dec i k) as [<-|N]; [now rewrite nth_set_same|]. rewrite nth_set_other by exact N. destruct Q as [Q|Q]; [congruence|exact Q].
Qed.
Lemma destroy_all E : platform_ok E -> forall l w, WI w -> (forall i, In i l -> (i < length (wchains w))%nat) -> exists w', run E w (map Destroy_ l) = Some w' /\ WI w' /\ length (wchains w') = length (wchains w) /\ wblocks w' = wblocks w /\
  (forall k, In k l \/ cblocks (get w k) = [] -> cblocks (get w' k) = []).
Proof.
  intros P. induction l as [|i l IH]; intros w W HL; cbn [map run].
  - exists w. split; [reflexivity|]. split; [exact W|]. split; [reflexivity|]. split; [reflexivity|]. intros k [[]|Q]. exact Q.
  - destruct (exec_ok E (env_of E P) w (Destroy_ i) W) as (w1 & X1 & W1 & _). { cbn [allowed]. apply there_len. apply HL. now left. }
    rewrite X1. destruct (destroy_blocks E w i w1 0%nat X1) as (L1 & B1 & _). destruct (IH w1 W1) as (w2 & X2 & W2 & L2 & B2 & C2). { intros k HI. rewrite L1. apply HL. now right. }
    exists w2. split; [exact X2|]. split; [exact W2|]. split; [congruence|]. split; [congruence|]. intros k Q. apply C2.
    destruct (destroy_blocks E w i w1 k X1) as (_ & _ & Q1). destruct Q as [[->|Q]|Q]; [right; apply Q1; now left|now left|right; apply Q1; now right].
Qed.
Lemma R_nothing cs bl x : (forall k, cblocks (nth k cs empty_chain) = []) -> bl = [] -> R cs bl x = 0.
Proof.
  intros N ->. unfold R, refs. rewrite app_nil_r. induction cs as [|c cs IH]; [reflexivity|]. cbn [map concat]. rewrite cnt_app. rewrite (N 0%nat : cblocks c = []). cbn [cnt]. apply IH. intros k. apply (N (S k)).
Qed.

(** Deciding that calls are allowed, for examples *)
Definition options_okb (opt : options) : bool := (0 <=? min_block_size opt) && (0 <? max_block_size opt) && (max_block_size opt <=? 2 ^ 31) && (match size_hint opt with Some s => 0 <=? s | None => true end).
Definition thereb (S : strings) (i : nat) : bool := Nat.ltb i (length (chains_ S)).
Definition heldb (S : strings) (i : nat) : bool := Nat.ltb i (length (blocks_ S)).
Definition allowedb (o : op) (S : strings) : bool :=
  match o with
  | New => true
  | Append_ i s opt | Prepend_ i s opt | AppendExternal_ i s opt | PrependExternal_ i s opt => thereb S i && options_okb opt && (zlen (str S i) + zlen s <=? SIZE_MAX)
  | AppendChain_ _ i j opt | PrependChain_ _ i j opt => thereb S i && thereb S j && negb (Nat.eqb i j) && options_okb opt && (zlen (str S i) + zlen (str S j) <=? SIZE_MAX)
  | AppendBlock_ _ i k opt | PrependBlock_ _ i k opt => thereb S i && heldb S k && options_okb opt && (0 <? zlen (blk_str S k)) && (zlen (str S i) + zlen (blk_str S k) <=? SIZE_MAX)
  | RemoveSuffix_ i n opt | RemovePrefix_ i n opt => thereb S i && options_okb opt && (0 <=? n) && (n <=? zlen (str S i))
  | Clear_ i | Destroy_ i => thereb S i
  | Assign_ i j | Move_ i j | Swap_ i j => thereb S i && thereb S j && negb (Nat.eqb i j)
  | Flatten_ i => thereb S i && (zlen (str S i) <=? kMaxCapacity)
  | NewBlock s => zlen s <=? SIZE_MAX
  | Pin i off len => thereb S i && (0 <=? off) && (off <? zlen (str S i)) && (0 <=? len)
  | CopyBlock k | DropBlock k => heldb S k
  | _ => false
  end.
Lemma options_okb_ok opt : options_okb opt = true -> options_ok opt.
Proof.
  unfold options_okb, options_ok. intros H. repeat apply andb_prop in H as [H ?]. repeat match goal with Q : _ = true |- _ => first [apply Z.leb_le in Q | apply Z.ltb_lt in Q | fail 1] end.
  split; [assumption|]. split; [lia|]. intros s EQ. rewrite EQ in *. now apply Z.leb_le.
Qed.
Lemma allowedb_ok o S : allowedb o S = true -> allowed o S.
Proof.
  unfold allowedb, allowed, there, held, thereb, heldb, fits, block_ok_with. destruct o; intros H; try exact Logic.I; try discriminate;
    repeat match goal with Q : _ && _ = true |- _ => apply andb_prop in Q as [? ?] end;
    repeat match goal with
    | Q : Nat.ltb _ _ = true |- _ => apply Nat.ltb_lt in Q
    | Q : (_ <=? _) = true |- _ => apply Z.leb_le in Q
    | Q : (_ <? _) = true |- _ => apply Z.ltb_lt in Q
    | Q : negb (Nat.eqb _ _) = true |- _ => apply Bool.negb_true_iff, Nat.eqb_neq in Q
    | Q : options_okb _ = true |- _ => apply options_okb_ok in Q
    end; repeat split; auto; try lia.
  all: try (match goal with Q : options_ok _ |- _ => destruct Q as (? & ? & ?) end; lia || auto).
Qed.
Fixpoint run_allowed (E : env) (w : world) (ops : list op) : option world :=
  match ops with [] => Some w | o :: ops => if allowedb o (strings_of w) then match exec E w o with Some w => run_allowed E w ops | None => None end else None end.
Lemma run_allowed_reachable E ops : forall w w', reachable E w -> run_allowed E w ops = Some w' -> reachable E w'.
Proof.
  induction ops as [|o ops IH]; intros w w' H; cbn [run_allowed]; [intros [= <-]; exact H|]. destruct (allowedb o (strings_of w)) eqn:A; [|discriminate]. destruct (exec E w o) as [w1|] eqn:X; [|discriminate].
  apply IH. apply (after_call E w o w1 H); [apply allowedb_ok; exact A|exact X].
Qed.
