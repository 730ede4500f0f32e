(** ChunkedSortedStringSet: iteration, queries, comparison. *)
From Verif Require Import Base.Bytes Spec.VarintSpec Spec.StringSetSpec Model.Varint Model.StringSet Spec.StringSetCalls Proof.VarintProof
  Proof.CodecLemmas Proof.CommonPrefixProof Proof.StringSetProof Proof.StringSetQuery Proof.StringSetBuild Proof.StringSetDecode
  Model.BinarySearch Spec.BinarySearchSpec Proof.BinarySearchProof Model.ChunkedStringSet Spec.ChunkedStringSetSpec.

(** ** Iteration *)
Fixpoint walks {T E} (I : linear_iterator T E) (enc : list Z) (it : T) (l : list E) : Prop :=
  match l with
  | [] => li_is_end I it = true
  | x :: l' => li_is_end I it = false /\ li_get I enc it = Some x /\ exists it', li_next I enc it = Some it' /\ walks I enc it' l'
  end.
Lemma elements_walks_from enc : bytes enc -> forall es it p x, iter_at enc it p x -> encodes x (zdrop p enc) es -> Forall short es ->
  walks linear_elements enc it (x :: es).
Proof.
  intros B; induction es as [|e es IH]; intros it p x At H Sh; pose proof At as (Ci & _ & _ & G); cbn [walks linear_elements li_is_end li_get li_next]; rewrite Ci, G.
  - destruct (iter_end _ _ _ _ At H) as (it' & E & En). split; [reflexivity|]. split; [reflexivity|]. exists it'. split; [exact E|]. rewrite En. reflexivity.
  - inversion Sh as [|a b Se Ses]; subst a b. destruct (iter_step _ _ _ _ _ _ B At H Se) as (it' & p' & E & At' & H').
    split; [reflexivity|]. split; [reflexivity|]. exists it'. split; [exact E|]. apply IH with p'; assumption.
Qed.
Lemma elements_walks enc es : bytes enc -> set_encoding enc es -> Forall short es ->
  exists it, li_begin linear_elements enc = Some it /\ walks linear_elements enc it es.
Proof.
  intros B H Sh. cbn [linear_elements li_begin]. unfold Iterator_begin. unfold set_encoding in H. rewrite <- (zdrop_nonpos 0 enc) in H by lia. destruct es as [|e es].
  - destruct (iter_end _ _ _ _ (iter_start enc) H) as (it' & E & En). exists it'. split; [exact E|]. cbn. rewrite En. reflexivity.
  - inversion Sh as [|a b Se Ses]; subst a b. destruct (iter_step _ _ _ _ _ _ B (iter_start enc) H Se) as (it' & p' & E & At' & H').
    exists it'. split; [exact E|]. apply elements_walks_from with p'; assumption.
Qed.
Lemma split_walks_from enc : bytes enc -> forall es it p x, siter_at enc it p x -> encodes (Split_string x) (zdrop p enc) es -> Forall short es ->
  exists ss, walks linear_split_elements enc it (x :: ss) /\ map Split_string ss = es /\
    shares (Split_string x) (map (fun s => (prefix s, suffix s)) ss).
Proof.
  intros B; induction es as [|e es IH]; intros it p x At H Sh; pose proof At as (Ci & _ & G).
  - destruct (siter_end _ _ _ _ At H) as (it' & E & En). exists []. cbn [walks linear_split_elements li_is_end li_get li_next map shares]. rewrite Ci, G.
    split; [|split; [reflexivity | exact Logic.I]]. split; [reflexivity|]. split; [reflexivity|]. exists it'. split; [exact E|]. rewrite En. reflexivity.
  - inversion Sh as [|a b Se Ses]; subst a b.
    destruct (siter_step _ _ _ _ _ _ B At H Se) as (it' & p' & x' & n & E & At' & Ex & Px & Hn & H'). rewrite <- Ex in H'.
    destruct (IH it' p' x' At' H' Ses) as (ss & W & M & Sr). exists (x' :: ss). split; [|split].
    + change (li_is_end linear_split_elements it = false /\ li_get linear_split_elements enc it = Some x /\
        exists it0, li_next linear_split_elements enc it = Some it0 /\ walks linear_split_elements enc it0 (x' :: ss)).
      cbn [linear_split_elements li_is_end li_get li_next]. rewrite Ci, G. split; [reflexivity|]. split; [reflexivity|]. exists it'. auto.
    + cbn [map]. rewrite M, Ex. reflexivity.
    + cbn [map shares]. split; [exists n; auto | exact Sr].
Qed.
Lemma split_walks enc es : bytes enc -> set_encoding enc es -> Forall short es ->
  exists it ss, li_begin linear_split_elements enc = Some it /\ walks linear_split_elements enc it ss /\ map Split_string ss = es /\
    shares [] (map (fun s => (prefix s, suffix s)) ss).
Proof.
  intros B H Sh. cbn [linear_split_elements li_begin]. unfold SplitIterator_begin. apply set_encoding_at in H. destruct es as [|e es].
  - destruct (siter_end _ _ _ _ (siter_start enc) H) as (it' & E & En). exists it', []. split; [exact E|]. cbn. rewrite En. auto.
  - inversion Sh as [|a b Se Ses]; subst a b.
    destruct (siter_step _ _ _ _ _ _ B (siter_start enc) H Se) as (it' & p' & x' & n & E & At' & Ex & Px & Hn & H'). rewrite <- Ex in H'.
    destruct (split_walks_from enc B es it' p' x' At' H' Ses) as (ss & W & M & Sr). exists it', (x' :: ss). split; [exact E|]. split; [exact W|].
    cbn [map]. rewrite M, Ex. split; [reflexivity|]. cbn [shares]. split; [exists n; auto | exact Sr].
Qed.

Fixpoint cwalks {T E} (I : linear_iterator T E) (chunks : list chunk) (it : citer T) (l : list E) : Prop :=
  match l with
  | [] => ci_is_end I it = true
  | x :: l' => ci_is_end I it = false /\ CIterator_get I chunks it = Some x /\
               exists it', CIterator_next I chunks it = Some it' /\ cwalks I chunks it' l'
  end.
Definition chunk_walks {T E} (I : linear_iterator T E) (c : chunk) (xs : list E) : Prop :=
  xs <> [] /\ exists it, li_begin I (c_set c) = Some it /\ walks I (c_set c) it xs.
Lemma nth_skipn {A} (l : list A) k x r : skipn k l = x :: r -> nth_error l k = Some x /\ skipn (S k) l = r.
Proof.
  revert l; induction k as [|k IH]; intros [|y l] E; try discriminate; [injection E as -> ->; split; reflexivity|]. cbn [skipn] in E.
  apply IH in E. exact E.
Qed.
Lemma nth_skipn_nil {A} (l : list A) k : skipn k l = [] -> nth_error l k = None.
Proof. revert l; induction k as [|k IH]; intros [|y l] E; try discriminate; auto. apply (IH l). exact E. Qed.
Lemma cwalks_from {T E} (I : linear_iterator T E) chunks : forall xss k c cs it xs, skipn k chunks = c :: cs -> Forall2 (chunk_walks I) cs xss ->
  walks I (c_set c) it xs -> xs <> [] -> cwalks I chunks {| ci_current := Some it; ci_chunk := k |} (xs ++ concat xss).
Proof.
  induction xss as [|ys xss IHx]; intros k c cs it xs Sk F W Ne; revert it W Ne; induction xs as [|x xs IH]; intros it W Ne; try contradiction;
    destruct (nth_skipn _ _ _ _ Sk) as [Nk Sk']; destruct W as (En & G & it' & Nx & W);
    cbn [app cwalks]; unfold ci_is_end, CIterator_get, CIterator_next; cbn [ci_current ci_chunk]; rewrite En, Nk, Nx;
    (split; [reflexivity|]); (split; [exact G|]).
  - destruct cs as [|c' cs]; [|inversion F]. destruct xs as [|y xs].
    + cbn [walks] in W. rewrite W. cbn [negb]. rewrite nth_skipn_nil by assumption. eexists. split; [reflexivity|]. cbn. exact W.
    + assert (En' : li_is_end I it' = false) by (destruct W; assumption). rewrite En'. cbn [negb]. eexists. split; [reflexivity|]. apply IH; [exact W | discriminate].
  - destruct cs as [|c' cs']; [inversion F|]. assert (F2 : chunk_walks I c' ys /\ Forall2 (chunk_walks I) cs' xss) by (inversion F; auto).
    destruct F2 as [(Ny & itb & Bg & Wb) F']. destruct xs as [|y xs].
    + cbn [walks] in W. rewrite W. cbn [negb app]. destruct (nth_skipn _ _ _ _ Sk') as [Nk' _]. rewrite Nk', Bg. eexists. split; [reflexivity|].
      cbn [concat]. apply IHx with c' cs'; auto.
    + assert (En' : li_is_end I it' = false) by (destruct W; assumption). rewrite En'. cbn [negb]. eexists. split; [reflexivity|]. apply IH; [exact W | discriminate].
Qed.
Lemma cwalks_begin {T E} (I : linear_iterator T E) chunks xss : Forall2 (chunk_walks I) chunks xss ->
  exists it, CIterator_begin I chunks = Some it /\ cwalks I chunks it (concat xss).
Proof.
  intros F. destruct F as [|c xs cs xss (Ne & it & Bg & W) F]; cbn [CIterator_begin].
  - eexists. split; [reflexivity|]. reflexivity.
  - rewrite Bg. eexists. split; [reflexivity|]. cbn [concat]. apply cwalks_from with c cs; auto.
Qed.
Lemma c_iterate_ok {T E} (I : linear_iterator T E) chunks : forall l fuel it, cwalks I chunks it l -> (length l <= fuel)%nat ->
  c_iterate I fuel chunks it = Some l.
Proof.
  induction l as [|x l IH]; intros fuel it W F.
  - cbn in W. destruct fuel; cbn [c_iterate]; rewrite W; reflexivity.
  - destruct W as (En & G & it' & Nx & W). cbn [length] in F. destruct fuel as [|fuel]; [lia|]. cbn [c_iterate]. rewrite En, G, Nx, IH by (auto; lia). reflexivity.
Qed.

(** ** The chunks *)
Lemma chunked_forall start chunks ess : chunked start chunks ess -> Forall2 chunk_of chunks ess.
Proof.
  revert start ess; induction chunks as [|c chunks IH]; intros start [|es ess] H; cbn [chunked] in H; try tauto; [constructor|].
  destruct H as (C & _ & H). constructor; [exact C | apply IH with (start + zlen es); exact H].
Qed.
Lemma chunked_app start c1 c2 e1 : chunked start c1 e1 -> forall e2, chunked (start + zlen (concat e1)) c2 e2 -> chunked start (c1 ++ c2) (e1 ++ e2).
Proof.
  revert start e1; induction c1 as [|c c1 IH]; intros start [|es e1] H e2 H2; cbn [chunked] in H; try tauto.
  - cbn [concat app] in *. change (zlen (@nil (list Z))) with 0 in H2. rewrite Z.add_0_r in H2. exact H2.
  - destruct H as (C & En & H). cbn [app chunked]. split; [exact C|]. split; [exact En|]. apply IH; [exact H|].
    cbn [concat] in H2. rewrite zlen_app in H2. rewrite <- Z.add_assoc. exact H2.
Qed.
Lemma chunked_back start chunks ess : chunked start chunks ess -> match rev chunks with [] => ess = [] | c :: _ => c_end c = start + zlen (concat ess) end.
Proof.
  revert start ess; induction chunks as [|c chunks IH]; intros start [|es ess] H; cbn [chunked] in H; try contradiction; [reflexivity|].
  destruct H as (C & En & H). apply IH in H. cbn [rev]. destruct (rev chunks) as [|d r] eqn:R; cbn [app].
  - subst ess. cbn [concat]. rewrite app_nil_r. exact En.
  - cbn [concat]. rewrite zlen_app. lia.
Qed.
Lemma back_end_ok chunks ess : chunked 0 chunks ess -> back_end chunks = zlen (concat ess).
Proof.
  intros H. pose proof (chunked_back _ _ _ H) as B. unfold back_end. destruct (rev chunks); [subst; reflexivity | exact B].
Qed.
Lemma total_bytes_ok chunks ess : Forall2 chunk_of chunks ess -> (length (concat ess) <= total_bytes chunks)%nat.
Proof.
  unfold total_bytes. induction 1 as [|c es cs ess (B & H & _) F IH]; [cbn; lia|]. cbn [concat map list_sum fold_right]. rewrite app_length.
  pose proof (encodes_fuel _ _ _ H). unfold list_sum in IH. lia.
Qed.
Lemma elements_chunk_walks chunks ess : Forall2 chunk_of chunks ess -> Forall2 (chunk_walks linear_elements) chunks ess.
Proof.
  induction 1 as [|c es cs ess (B & H & Sh & Ne) F IH]; constructor; [|exact IH]. split; [exact Ne|].
  apply elements_walks; assumption.
Qed.
Lemma shares_any ps : shares [] ps -> forall prev, shares prev ps.
Proof.
  destruct ps as [|(p, s) ps]; intros H prev; [exact Logic.I|]. destruct H as [(n & -> & Hn) H]. cbn [shares]. split; [|exact H].
  exists 0. change (zlen (@nil Z)) with 0 in Hn. pose proof (zlen_nonneg prev). split; [|lia]. rewrite !ztake_nonpos by lia. reflexivity.
Qed.
Lemma shares_app a b : (forall prev, shares prev b) -> forall prev, shares prev a -> shares prev (a ++ b).
Proof.
  intros Hb. induction a as [|(p, s) a IH]; intros prev H; [apply Hb|]. destruct H as [H1 H2]. cbn [app shares]. split; [exact H1 | apply IH; exact H2].
Qed.
Lemma split_chunk_walks chunks ess : Forall2 chunk_of chunks ess ->
  exists sss, Forall2 (chunk_walks linear_split_elements) chunks sss /\ map Split_string (concat sss) = concat ess /\
    forall prev, shares prev (map (fun s => (prefix s, suffix s)) (concat sss)).
Proof.
  induction 1 as [|c es cs ess (B & H & Sh & Ne) F IH]; [exists []; repeat split; constructor|].
  destruct IH as (sss & Fs & M & Sr). destruct (split_walks _ _ B H Sh) as (it & ss & Bg & W & Ms & Ss).
  exists (ss :: sss). split.
  - constructor; [|exact Fs]. split; [|exists it; auto]. intros ->. cbn in Ms. congruence.
  - cbn [concat]. rewrite map_app, Ms, M. split; [reflexivity|]. intros prev. rewrite map_app. apply shares_app; [exact Sr|]. apply shares_any. exact Ss.
Qed.

Lemma CSet_elements_ok chunks ess : Forall2 chunk_of chunks ess -> CSet_elements chunks = Some (concat ess).
Proof.
  intros F. unfold CSet_elements, c_elements. destruct (cwalks_begin _ _ _ (elements_chunk_walks _ _ F)) as (it & -> & W).
  apply c_iterate_ok; [exact W | apply total_bytes_ok; exact F].
Qed.
Lemma CSet_split_elements_ok chunks ess : Forall2 chunk_of chunks ess ->
  exists ss, CSet_split_elements chunks = Some ss /\ map Split_string ss = concat ess /\ shares [] (map (fun s => (prefix s, suffix s)) ss).
Proof.
  intros F. unfold CSet_split_elements, c_elements. destruct (split_chunk_walks _ _ F) as (sss & Fs & M & Sr).
  destruct (cwalks_begin _ _ _ Fs) as (it & -> & W). exists (concat sss). split; [|auto]. apply c_iterate_ok; [exact W|].
  rewrite <- (map_length Split_string), M. apply total_bytes_ok. exact F.
Qed.

(** ** Comparison *)
Fixpoint equal_splits (a b : list split) : bool :=
  match a, b with
  | [], [] => true
  | x :: a', y :: b' => Split_Equal x y && equal_splits a' b'
  | _, _ => false
  end.
Lemma c_equal_loop_ok ca cb : forall a b fuel ia ib, cwalks linear_split_elements ca ia a -> cwalks linear_split_elements cb ib b ->
  (length a < fuel)%nat -> c_equal_loop fuel ca cb ia ib = Some (equal_splits a b).
Proof.
  induction a as [|x a IH]; intros b fuel ia ib Wa Wb F; (destruct fuel as [|fuel]; [lia|]); cbn [c_equal_loop].
  - cbn [cwalks] in Wa. rewrite Wa. destruct b as [|y b]; [cbn [cwalks] in Wb; rewrite Wb; reflexivity|]. destruct Wb as (-> & _). reflexivity.
  - destruct Wa as (-> & -> & ia' & -> & Wa). cbn [length] in F. destruct b as [|y b]; [cbn [cwalks] in Wb; rewrite Wb; reflexivity|].
    destruct Wb as (-> & -> & ib' & -> & Wb). cbn [equal_splits]. destruct (Split_Equal x y); cbn [negb andb]; [|reflexivity]. apply IH; auto; lia.
Qed.
Lemma c_compare_loop_ok ca cb : forall a b fuel ia ib, cwalks linear_split_elements ca ia a -> cwalks linear_split_elements cb ib b ->
  (length a < fuel)%nat -> c_compare_loop fuel ca cb ia ib = Some (lex_cmp_list (map Split_string a) (map Split_string b)).
Proof.
  induction a as [|x a IH]; intros b fuel ia ib Wa Wb F; (destruct fuel as [|fuel]; [lia|]); cbn [c_compare_loop].
  - cbn [cwalks] in Wa. rewrite Wa. destruct b as [|y b]; [cbn [cwalks] in Wb; rewrite Wb; reflexivity|]. destruct Wb as (-> & _). reflexivity.
  - destruct Wa as (-> & -> & ia' & -> & Wa). cbn [length] in F. destruct b as [|y b]; [cbn [cwalks] in Wb; rewrite Wb; reflexivity|].
    destruct Wb as (-> & -> & ib' & -> & Wb). cbn [map lex_cmp_list]. rewrite Split_Compare_ok.
    destruct (lex_cmp (Split_string x) (Split_string y)); try reflexivity. apply IH; auto; lia.
Qed.
Lemma equal_splits_sound a : forall b prev, shares prev (map (fun s => (prefix s, suffix s)) a) -> shares prev (map (fun s => (prefix s, suffix s)) b) ->
  equal_splits a b = true -> map Split_string a = map Split_string b.
Proof.
  induction a as [|x a IH]; intros [|y b] prev Ha Hb E; try discriminate; [reflexivity|]. cbn [equal_splits] in E. apply andb_true_iff in E. destruct E as [E1 E2].
  cbn [map shares] in Ha, Hb. destruct Ha as [(n & Pa & _) Ha], Hb as [(m & Pb & _) Hb].
  pose proof (Split_Equal_sound x y n m prev Pa Pb E1) as E. cbn [map]. unfold Split_string in E at 1 2. rewrite <- E in Hb. f_equal; [exact E | apply IH with (prefix x ++ suffix x); assumption].
Qed.
Lemma equal_splits_refl a : equal_splits a a = true.
Proof. induction a as [|x a IH]; [reflexivity|]. cbn [equal_splits]. rewrite Split_Equal_refl. exact IH. Qed.
Lemma CSet_Compare_ok ca cb ea eb : Forall2 chunk_of ca ea -> Forall2 chunk_of cb eb -> CSet_Compare ca cb = Some (lex_cmp_list (concat ea) (concat eb)).
Proof.
  intros Fa Fb. unfold CSet_Compare. destruct (split_chunk_walks _ _ Fa) as (sa & Wa & Ma & _). destruct (split_chunk_walks _ _ Fb) as (sb & Wb & Mb & _).
  destruct (cwalks_begin _ _ _ Wa) as (ia & -> & Ca). destruct (cwalks_begin _ _ _ Wb) as (ib & -> & Cb).
  rewrite (c_compare_loop_ok ca cb _ _ _ _ _ Ca Cb); [rewrite Ma, Mb; reflexivity|]. rewrite <- (map_length Split_string), Ma. pose proof (total_bytes_ok _ _ Fa). lia.
Qed.
Lemma CSet_Equal_sound ca cb ea eb : Forall2 chunk_of ca ea -> Forall2 chunk_of cb eb ->
  exists r, CSet_Equal ca cb = Some r /\ (r = true -> concat ea = concat eb).
Proof.
  intros Fa Fb. unfold CSet_Equal. destruct (CSet_size ca =? CSet_size cb); [|exists false; split; [reflexivity|discriminate]].
  destruct (split_chunk_walks _ _ Fa) as (sa & Wa & Ma & Sa). destruct (split_chunk_walks _ _ Fb) as (sb & Wb & Mb & Sb).
  destruct (cwalks_begin _ _ _ Wa) as (ia & -> & Ca). destruct (cwalks_begin _ _ _ Wb) as (ib & -> & Cb).
  rewrite (c_equal_loop_ok ca cb _ _ _ _ _ Ca Cb).
  - eexists. split; [reflexivity|]. intros E. rewrite <- Ma, <- Mb. apply equal_splits_sound with (@nil Z); auto.
  - rewrite <- (map_length Split_string), Ma. pose proof (total_bytes_ok _ _ Fa). lia.
Qed.
Lemma CSet_Equal_refl ca ea : Forall2 chunk_of ca ea -> CSet_Equal ca ca = Some true.
Proof.
  intros Fa. unfold CSet_Equal. rewrite Z.eqb_refl. destruct (split_chunk_walks _ _ Fa) as (sa & Wa & Ma & Sa).
  destruct (cwalks_begin _ _ _ Wa) as (ia & -> & Ca). rewrite (c_equal_loop_ok ca ca _ _ _ _ _ Ca Ca), equal_splits_refl; [reflexivity|].
  rewrite <- (map_length Split_string), Ma. pose proof (total_bytes_ok _ _ Fa). lia.
Qed.
