(** ChunkedSortedStringSet: contains(). *)
From Verif Require Import Base.Bytes Spec.VarintSpec Spec.StringSetSpec Model.Varint Model.StringSet Spec.StringSetCalls Proof.VarintProof
  Proof.CodecLemmas Proof.CommonPrefixProof Proof.StringSetProof Proof.StringSetQuery Proof.StringSetBuild Proof.StringSetDecode
  Model.BinarySearch Spec.BinarySearchSpec Proof.BinarySearchProof Model.ChunkedStringSet Spec.ChunkedStringSetSpec Proof.ChunkedSetProof.

Lemma Forall2_len {A B} (R : A -> B -> Prop) l l' : Forall2 R l l' -> length l = length l'.
Proof. induction 1; cbn [length]; congruence. Qed.
(** ** Order *)
Lemma increasing_app a b : increasing (a ++ b) <-> increasing a /\ increasing b /\ (forall x y, In x a -> In y b -> lex_lt x y).
Proof.
  induction a as [|e a IH]; cbn [app].
  - split; [intros H; repeat split; auto; [constructor | intros x y []] | tauto].
  - rewrite !increasing_cons, Forall_app, IH. rewrite !Forall_forall. split.
    + intros ((Ia & Ib & L) & Fa & Fb). repeat split; auto. intros x y [<-|Hx] Hy; auto.
    + intros ((Ia & Fa) & Ib & L). repeat split; auto; intros x Hx; [intros y Hy; apply L; [right|]; auto | apply L; [left; reflexivity | exact Hx]].
Qed.
Lemma index_of_app q a b : index_of q (a ++ b) = index_of q a + index_of q b.
Proof. unfold index_of. rewrite filter_app, zlen_app. reflexivity. Qed.
Lemma index_of_below q a : (forall x, In x a -> lex_lt x q) -> index_of q a = zlen a.
Proof.
  unfold index_of. induction a as [|e a IH]; intros H; [reflexivity|]. cbn [filter]. unfold lessb at 1. rewrite (H e (or_introl eq_refl)), !zlen_cons, IH; [reflexivity|].
  intros x Hx. apply H. right. exact Hx.
Qed.
Lemma lex_lt_irrefl x : ~ lex_lt x x.
Proof. unfold lex_lt. rewrite lex_cmp_refl. discriminate. Qed.
Lemma in_iff_middle q a m b : (forall x, In x a -> lex_lt x q) -> (forall x, In x b -> lex_lt q x) -> (In q (a ++ m ++ b) <-> In q m).
Proof.
  intros Ha Hb. rewrite !in_app_iff. split; [|tauto]. intros [H | [H | H]]; [|exact H|].
  - apply Ha in H. apply lex_lt_irrefl in H. destruct H.
  - apply Hb in H. apply lex_lt_irrefl in H. destruct H.
Qed.

(** ** A search with a test without state *)
Lemma pure_search (t : Z -> ordering) test low high fuel : 2 * Z.max 0 (high - low) + 1 <= Z.of_nat fuel ->
  (forall p, low <= p < high -> test p tt = Some (t p, tt)) ->
  exists res log, DefaultBinarySearch test fuel low high tt = Some (res, tt) /\ outcome (fun _ => True) low high res log /\
    Forall (fun e => snd e = t (fst e)) log.
Proof.
  intros FU HT. pose (R := fun (log : list (Z * ordering)) (s : unit) => Forall (fun e => snd e = t (fst e)) log).
  destruct (search_result DefaultMiddle (GetSearchGuide DefaultNext test) (fun _ => True) (fun _ => True) low high R R) with (st := tt) (fuel := fuel)
    as (res & log & [] & E & RL & O); auto.
  - intros log s l h RS _ _ _ _. unfold DefaultMiddle. destruct (Z.leb_spec h l).
    + eexists None, s. split; [reflexivity|]. split; [exact RS|]. intros; lia.
    + eexists (Some _), s. split; [reflexivity|]. split; [exact RS|]. split; [|exact Logic.I].
      assert (0 <= (h - l) / 2 < h - l) by (split; [apply Z.div_pos; lia|apply Z.div_lt; lia]). lia.
  - intros log [] p RS _ _ PR. unfold GetSearchGuide. rewrite HT by exact PR. eexists (t p), _, tt. split; [reflexivity|]. split.
    + apply Forall_app. split; [exact RS|]. constructor; [reflexivity|constructor].
    + destruct (t p); cbn [ge0]; unfold DefaultNext; try reflexivity; repeat split; auto; intros; lia.
  - constructor.
  - exists res, log. auto.
Qed.
Lemma outcome_range t low high res log : low <= high -> outcome (fun _ => True) low high res log -> Forall (fun e => snd e = t (fst e)) log ->
  low <= snd res <= high /\ (fst res = Equivalent -> snd res < high).
Proof.
  intros Le (_ & F & O) Ft. rewrite Forall_forall in F. destruct O as [(a & f & -> & ->) | (N & -> & _)]; cbn [fst snd].
  - assert (Hf := F (f, Equivalent) ltac:(apply in_or_app; right; left; reflexivity)). cbn [fst] in Hf. lia.
  - destruct (last_with Greater log) as [g|] eqn:G; [|destruct (last_with Less log); cbn [fst snd]; split; try lia; discriminate].
    apply last_with_in in G. apply F in G. cbn [fst snd] in *. split; [lia | discriminate].
Qed.

(** The first elements of chunks *)
Definition first_of (ess : list (list (list Z))) (p : Z) : list Z := hd [] (nth (Z.to_nat p) ess []).
Lemma Forall2_nth {A B} (R : A -> B -> Prop) l l' n (y0 : B) : Forall2 R l l' -> (n < length l)%nat -> exists x, nth_error l n = Some x /\ R x (nth n l' y0).
Proof.
  intros F; revert n; induction F as [|x y l l' H F IH]; intros n Hn; cbn [length] in Hn; [lia|]. destruct n as [|n]; [exists x; auto|]. apply IH. lia.
Qed.
Lemma CompareFirst_ok chunks ess q p : Forall2 chunk_of chunks ess -> 0 <= p < zlen chunks ->
  CompareFirst chunks q p tt = Some (ordering_of (lex_cmp (first_of ess p) q), tt).
Proof.
  intros F Hp. unfold CompareFirst, first_of. destruct (Forall2_nth _ _ _ (Z.to_nat p) [] F) as (c & -> & B & H & Sh & Ne); [unfold zlen in Hp; lia|].
  destruct (nth (Z.to_nat p) ess []) as [|e es]; [contradiction|]. rewrite (Set_first_ok (c_set c) e es B H). reflexivity.
Qed.
Lemma split_at {A} (l : list A) k : (k < length l)%nat -> exists a x b, l = a ++ x :: b /\ length a = k /\ nth_error l k = Some x.
Proof.
  revert k; induction l as [|y l IH]; intros k Hk; cbn [length] in Hk; [lia|]. destruct k as [|k]; [exists [], y, l; auto|].
  destruct (IH k ltac:(lia)) as (a & x & b & -> & L & N). exists (y :: a), x, b. cbn [length app nth_error]. auto.
Qed.
Lemma nth_middle_eq {A} (a : list A) x b d : nth (length a) (a ++ x :: b) d = x.
Proof. induction a; [reflexivity | exact IHa]. Qed.

Lemma chunked_split start chunks ess k : chunked start chunks ess -> (k < length chunks)%nat ->
  exists c1 c c2 e1 es e2, chunks = c1 ++ c :: c2 /\ ess = e1 ++ es :: e2 /\ length c1 = k /\ length e1 = k /\
    chunked start c1 e1 /\ chunk_of c es /\ c_end c = start + zlen (concat e1) + zlen es /\ chunked (start + zlen (concat e1) + zlen es) c2 e2.
Proof.
  revert start chunks ess; induction k as [|k IH]; intros start [|c chunks] [|es ess] H Hk; cbn [chunked length] in *; try contradiction; try lia.
  - destruct H as (C & En & H). exists [], c, chunks, [], es, ess. cbn [concat app]. change (zlen (@nil (list Z))) with 0. rewrite Z.add_0_r. repeat (split; [reflexivity|]). auto.
  - destruct H as (C & En & H). destruct (IH (start + zlen es) chunks ess H ltac:(lia)) as (c1 & d & c2 & e1 & ds & e2 & -> & -> & L1 & L2 & H1 & Cd & Ed & H2).
    exists (c :: c1), d, c2, (es :: e1), ds, e2. cbn [app length concat chunked]. rewrite zlen_app, !Z.add_assoc. auto 12.
Qed.
Lemma chunked_length start chunks ess : chunked start chunks ess -> length chunks = length ess.
Proof. intros H. apply chunked_forall in H. apply Forall2_len in H. exact H. Qed.

(** Where the search leads: [k] is the chunk to search. *)
Definition chosen (ess : list (list (list Z))) (q : list Z) (k : Z) : Prop :=
  0 <= k < zlen ess /\ (0 < k -> lex_lt (first_of ess k) q) /\ (forall p, k < p < zlen ess -> lex_lt q (first_of ess p)).
Lemma first_of_in ess p : 0 <= p < zlen ess -> Forall (fun es => es <> []) ess -> In (first_of ess p) (nth (Z.to_nat p) ess []).
Proof.
  intros Hp F. unfold first_of. rewrite Forall_forall in F. assert (Hn : (Z.to_nat p < length ess)%nat) by (unfold zlen in Hp; lia).
  pose proof (F _ (nth_In ess [] Hn)) as Ne. destruct (nth (Z.to_nat p) ess []); [contradiction | left; reflexivity].
Qed.
Lemma first_of_lt ess p r : increasing (concat ess) -> Forall (fun es => es <> []) ess -> 0 <= p -> p < r < zlen ess -> lex_lt (first_of ess p) (first_of ess r).
Proof.
  intros Inc F Hp Hr. destruct (split_at ess (Z.to_nat r)) as (a & x & b & E & L & _); [unfold zlen in Hr; lia|].
  assert (Hx : In (first_of ess r) x).
  { pose proof (first_of_in ess r ltac:(lia) F) as H. rewrite E in H at 2. rewrite <- L, nth_middle_eq in H. exact H. }
  assert (Hq : In (first_of ess p) (concat a)).
  { apply in_concat. exists (nth (Z.to_nat p) ess []). split; [|apply first_of_in; [lia|exact F]]. rewrite E. rewrite app_nth1 by lia. apply nth_In. lia. }
  rewrite E, concat_app in Inc. cbn [concat] in Inc. apply increasing_app in Inc. destruct Inc as (_ & _ & Lt). apply Lt; [exact Hq | apply in_or_app; left; exact Hx].
Qed.
Lemma find_chunk_ok chunks ess q : Forall2 chunk_of chunks ess -> increasing (concat ess) -> chunks <> [] ->
  exists o found, find_chunk chunks q = Some ((o, found), tt) /\
    ((o = Equivalent /\ 1 <= found < zlen ess /\ first_of ess found = q) \/ (o <> Equivalent /\ chosen ess q (found - 1))).
Proof.
  intros F Inc Ne. pose proof (Forall2_len _ _ _ F) as L. assert (Lz : zlen chunks = zlen ess) by (unfold zlen; lia).
  assert (N1 : 1 <= zlen ess) by (rewrite <- Lz; destruct chunks; [contradiction|]; rewrite zlen_cons; pose proof (zlen_nonneg chunks); lia).
  assert (Fn : Forall (fun es => es <> []) ess) by (clear - F; induction F as [|c es cs ess (_ & _ & _ & N) F IH]; constructor; auto).
  unfold find_chunk. rewrite Lz.
  destruct (pure_search (fun p => ordering_of (lex_cmp (first_of ess p) q)) (CompareFirst chunks q) 1 (zlen ess) (2 * length chunks + 1)) as ([o found] & log & E & O & Ft).
  { unfold zlen. lia. }
  { intros p Hp. apply CompareFirst_ok; [exact F|lia]. }
  exists o, found. split; [exact E|].
  assert (M : monotone (fun p => ordering_of (lex_cmp (first_of ess p) q)) 1 (zlen ess)).
  { intros p r Hp Hr. destruct (Z.lt_trichotomy p r) as [Lt | [-> | Gt]]; [repeat split; intros; lia | | ].
    - destruct (lex_cmp (first_of ess r) q); cbn; repeat split; congruence.
    - pose proof (first_of_lt ess r p Inc Fn ltac:(lia) ltac:(lia)) as Lt.
      destruct (lex_cmp (first_of ess r) q) eqn:Cr; destruct (lex_cmp (first_of ess p) q) eqn:Cp; cbn; repeat split; try congruence; exfalso.
      + apply lex_cmp_eq in Cr. rewrite Cr in Lt. unfold lex_lt in Lt. rewrite lex_cmp_antisym, Cp in Lt. discriminate.
      + assert (C2 : lex_cmp q (first_of ess r) = Datatypes.Lt) by (rewrite lex_cmp_antisym, Cr; reflexivity). pose proof (lex_lt_trans _ _ _ C2 Lt) as C3. unfold lex_lt in C3.
        apply lex_cmp_eq in Cp. rewrite Cp, lex_cmp_refl in C3. discriminate.
      + assert (C2 : lex_cmp q (first_of ess r) = Datatypes.Lt) by (rewrite lex_cmp_antisym, Cr; reflexivity). pose proof (lex_lt_trans _ _ _ C2 Lt) as C3. unfold lex_lt in C3.
        rewrite lex_cmp_antisym, Cp in C3. discriminate. }
  pose proof (default_found _ _ _ _ _ O Ft M) as Fo. unfold found_ok in Fo. cbn [fst snd] in Fo.
  assert (Cm : forall p, 1 <= p < zlen ess -> ordering_of (lex_cmp (first_of ess p) q) <> Equivalent -> ordering_of (lex_cmp (first_of ess p) q) <> Greater -> lex_lt (first_of ess p) q).
  { intros p Hp N2 N3. unfold lex_lt. destruct (lex_cmp (first_of ess p) q); cbn in *; congruence. }
  destruct o.
  - right. split; [discriminate|]. destruct Fo as (-> & _ & All). split; [lia|]. split; [|intros; lia]. intros K. apply Cm; [lia| |]; apply All; lia.
  - left. destruct Fo as (R & T). split; [reflexivity|]. split; [exact R|]. apply lex_cmp_eq. destruct (lex_cmp (first_of ess found) q); [reflexivity|discriminate|discriminate].
  - right. split; [discriminate|]. destruct Fo as (R & T & All).
    assert (Gq : lex_lt q (first_of ess found)) by (unfold lex_lt; rewrite lex_cmp_antisym; destruct (lex_cmp (first_of ess found) q); [discriminate|discriminate|reflexivity]).
    split; [lia|]. split; [intros K; apply Cm; [lia| |]; apply All; lia|]. intros p Hp. destruct (Z.eq_dec p found) as [->|]; [exact Gq|].
    apply lex_lt_trans with (first_of ess found); [exact Gq|]. apply first_of_lt; auto; lia.
  - right. split; [discriminate|]. destruct Fo as (-> & All). destruct (Z.eq_dec (zlen ess) 1) as [E1|E1].
    + rewrite E1. split; [lia|]. split; intros; lia.
    + exfalso. specialize (All 1 ltac:(lia)). destruct (lex_cmp (first_of ess 1) q); discriminate.
Qed.

Lemma chosen_below e1 es e2 q : increasing (concat (e1 ++ es :: e2)) -> Forall (fun es => es <> []) (e1 ++ es :: e2) ->
  chosen (e1 ++ es :: e2) q (zlen e1) ->
  (forall x, In x (concat e1) -> lex_lt x q) /\ (forall x, In x (concat e2) -> lex_lt q x).
Proof.
  intros Inc Fn (R & Lo & Hi). assert (Fe : first_of (e1 ++ es :: e2) (zlen e1) = hd [] es).
  { unfold first_of, zlen. rewrite Nat2Z.id, nth_middle_eq. reflexivity. }
  rewrite concat_app in Inc. cbn [concat] in Inc. apply increasing_app in Inc. destruct Inc as (I1 & I2 & L12). apply increasing_app in I2. destruct I2 as (I2 & I3 & L23).
  apply Forall_app in Fn. destruct Fn as [_ Fn]. inversion Fn as [|u v Ne Fn2]; subst u v. split.
  - intros x Hx. destruct e1 as [|y e1]; [destruct Hx|]. rewrite Fe in Lo. apply lex_lt_trans with (hd [] es).
    + apply L12; [exact Hx|]. apply in_or_app. left. destruct es; [contradiction | left; reflexivity].
    + apply Lo. rewrite zlen_cons. pose proof (zlen_nonneg e1). lia.
  - intros x Hx. apply in_concat in Hx. destruct Hx as (d & Hd & Hx). apply in_split in Hd. destruct Hd as (b1 & b2 & E2).
    assert (Hp : zlen e1 < zlen (e1 ++ es :: b1) < zlen (e1 ++ es :: e2)).
    { rewrite E2, !zlen_app, !zlen_cons, zlen_app, zlen_cons. pose proof (zlen_nonneg b1); pose proof (zlen_nonneg b2). lia. }
    specialize (Hi _ Hp). assert (Fd : first_of (e1 ++ es :: e2) (zlen (e1 ++ es :: b1)) = hd [] d).
    { unfold first_of, zlen. rewrite Nat2Z.id, E2. replace (e1 ++ es :: b1 ++ d :: b2) with ((e1 ++ es :: b1) ++ d :: b2) by (rewrite <- app_assoc; reflexivity).
      rewrite nth_middle_eq. reflexivity. }
    rewrite Fd in Hi. destruct d as [|d0 d]; [destruct Hx|]. cbn [hd] in Hi. destruct Hx as [<-|Hx]; [exact Hi|]. apply lex_lt_trans with d0; [exact Hi|].
    rewrite E2, concat_app in I3. cbn [concat] in I3. apply increasing_app in I3. destruct I3 as (_ & I3 & _). apply increasing_app in I3. destruct I3 as (I3 & _).
    apply increasing_cons in I3. destruct I3 as [_ A]. rewrite Forall_forall in A. apply A. exact Hx.
Qed.
Lemma linear_contains enc es q : bytes enc -> set_encoding enc es -> Forall short es -> increasing es -> bytes q ->
  exists r, Set_contains enc q = Some (r, index_of q es) /\ (r = true <-> In q es).
Proof.
  intros B H Sh Inc Bq. exists (existsb (list_eqb q) es). rewrite (Set_contains_scan enc es), scan_ok by assumption. split; [reflexivity|].
  rewrite existsb_exists. split; [intros (x & Hx & E); apply list_eqb_eq in E; subst; exact Hx | intros Hx; exists q; split; [exact Hx | apply list_eqb_refl]].
Qed.
Lemma linear_contains_skip enc e es q : bytes enc -> set_encoding enc (e :: es) -> Forall short (e :: es) -> increasing (e :: es) ->
  bytes q -> lex_lt e q ->
  exists r, Set_contains_skip_first enc q = Some (r, Some (index_of q (e :: es))) /\ (r = true <-> In q (e :: es)).
Proof.
  intros B H Sh Inc Bq Lt. exists (existsb (list_eqb q) es). rewrite (Set_contains_skip_scan enc e es) by assumption.
  apply increasing_cons in Inc. destruct Inc as [Inc A]. rewrite scan_ok by assumption. split.
  - unfold index_of. cbn [filter]. unfold lessb at 2. unfold lex_lt in Lt. rewrite Lt, zlen_cons. reflexivity.
  - rewrite existsb_exists. cbn [In]. split; [intros (x & Hx & E); apply list_eqb_eq in E; subst; auto|].
    intros [<-|Hx]; [unfold lex_lt in Lt; rewrite lex_cmp_refl in Lt; discriminate | exists q; split; [exact Hx | apply list_eqb_refl]].
Qed.
Lemma CSet_contains_ok chunks ess q : chunked 0 chunks ess -> increasing (concat ess) -> bytes q ->
  exists r, CSet_contains_index chunks q = Some (r, index_of q (concat ess)) /\ CSet_contains chunks q = Some r /\ (r = true <-> In q (concat ess)).
Proof.
  intros H Inc Bq. pose proof (chunked_forall _ _ _ H) as F.
  destruct chunks as [|c0 cs0] eqn:Ec.
  { destruct ess; [|destruct H]. exists false. cbn. split; [reflexivity|]. split; [reflexivity|]. split; [discriminate|tauto]. }
  rewrite <- Ec in *. assert (Ne : chunks <> []) by (rewrite Ec; discriminate).
  assert (Fn : Forall (fun es => es <> []) ess) by (clear - F; induction F as [|c es cs ess (_ & _ & _ & N) F IH]; constructor; auto).
  pose proof (chunked_length _ _ _ H) as L.
  destruct (find_chunk_ok chunks ess q F Inc Ne) as (o & found & E & D).
  assert (Ui : CSet_contains_index chunks q = match find_chunk chunks q with
      | None => None
      | Some ((o, found), _) =>
          match nth_error chunks (Z.to_nat (found - 1)) with
          | None => None
          | Some c => match o with
              | Equivalent => Some (true, c_end c)
              | _ => if found - 1 =? 0 then Set_contains (c_set c) q
                     else match Set_contains_skip_first (c_set c) q, nth_error chunks (Z.to_nat (found - 1 - 1)) with
                          | Some (result, Some index), Some before => Some (result, index + c_end before)
                          | _, _ => None
                          end
              end
          end
      end) by (rewrite Ec; reflexivity).
  assert (Uc : CSet_contains chunks q = match find_chunk chunks q with
      | None => None
      | Some ((o, found), _) =>
          match o with
          | Equivalent => Some true
          | _ => match nth_error chunks (Z.to_nat (found - 1)) with
                 | None => None
                 | Some c => if found - 1 =? 0 then option_map fst (Set_contains (c_set c) q)
                             else option_map fst (Set_contains_skip_first (c_set c) q)
                 end
          end
      end) by (rewrite Ec; reflexivity).
  rewrite Ui, Uc, E. clear Ui Uc. destruct D as [(-> & R & Fq) | (No & Ch)].
  - (* the first element of a chunk is equal *)
    destruct (chunked_split 0 chunks ess (Z.to_nat (found - 1)) H) as (c1 & c & c2 & e1 & es & e2 & E1 & E2 & L1 & L2 & H1 & C & En & H2);
      [unfold zlen in R; lia|].
    rewrite E1, <- L1. rewrite nth_error_app2, Nat.sub_diag by lia. cbn [nth_error]. exists true.
    destruct e2 as [|d e2]; [exfalso; rewrite E2, zlen_app, zlen_cons in R; unfold zlen in R; cbn in R; lia|].
    assert (Fd : first_of ess found = hd [] d).
    { unfold first_of. rewrite E2. replace (e1 ++ es :: d :: e2) with ((e1 ++ [es]) ++ d :: e2) by (rewrite <- app_assoc; reflexivity).
      replace (Z.to_nat found) with (length (e1 ++ [es])) by (rewrite app_length; cbn; lia). rewrite nth_middle_eq. reflexivity. }
    rewrite E2 in Fn. apply Forall_app in Fn. destruct Fn as [_ Fn]. inversion Fn as [|u v N1 Fn2]; subst u v. inversion Fn2 as [|u v N2 _]; subst u v.
    destruct d as [|d0 d]; [contradiction|]. rewrite Fd in Fq. cbn [hd] in Fq. subst d0.
    assert (Ecc : concat ess = (concat e1 ++ es) ++ q :: (d ++ concat e2)).
    { rewrite E2, concat_app. cbn [concat app]. rewrite <- !app_assoc. reflexivity. }
    rewrite Ecc in *. apply increasing_app in Inc. destruct Inc as (_ & I2 & Lt).
    split; [|split; [reflexivity|]].
    + f_equal. f_equal. rewrite index_of_app. rewrite index_of_below by (intros x Hx; apply Lt; [exact Hx | left; reflexivity]).
      change (q :: d ++ concat e2) with ([q] ++ (d ++ concat e2)). rewrite index_of_app. apply increasing_cons in I2. destruct I2 as [_ A].
      rewrite (index_of_above q (d ++ concat e2) A). unfold index_of at 1. cbn [filter]. unfold lessb. rewrite lex_cmp_refl. rewrite zlen_app, En.
      change (zlen (@nil (list Z))) with 0. lia.
    + split; [intros _; apply in_or_app; right; left; reflexivity | reflexivity].
  - pose proof Ch as (Rk & Lo & Hi).
    destruct (chunked_split 0 chunks ess (Z.to_nat (found - 1)) H) as (c1 & c & c2 & e1 & es & e2 & E1 & E2 & L1 & L2 & H1 & (B & He & Sh & Nes) & En & H2);
      [unfold zlen in Rk; lia|].
    assert (Nc : nth_error chunks (Z.to_nat (found - 1)) = Some c) by (rewrite E1, <- L1, nth_error_app2, Nat.sub_diag by lia; reflexivity).
    rewrite Nc. assert (Lk : zlen e1 = found - 1) by (unfold zlen; lia).
    assert (Cb : (forall x, In x (concat e1) -> lex_lt x q) /\ (forall x, In x (concat e2) -> lex_lt q x)).
    { rewrite E2 in Inc, Fn, Ch. rewrite <- Lk in Ch. apply (chosen_below e1 es e2 q Inc Fn Ch). }
    destruct Cb as [Below Above].
    assert (Ix : index_of q (concat ess) = zlen (concat e1) + index_of q es).
    { rewrite E2, concat_app. cbn [concat]. rewrite !index_of_app, index_of_below by exact Below.
      rewrite (index_of_above q (concat e2)) by (apply Forall_forall; exact Above). lia. }
    assert (Ins : In q (concat ess) <-> In q es).
    { rewrite E2, concat_app. cbn [concat]. apply in_iff_middle; assumption. }
    assert (Ies : increasing es).
    { rewrite E2, concat_app in Inc. cbn [concat] in Inc. apply increasing_app in Inc. destruct Inc as (_ & I2 & _). apply increasing_app in I2. tauto. }
    rewrite Ix. destruct (Z.eqb_spec (found - 1) 0) as [K|K].
    + destruct (linear_contains (c_set c) es q B He Sh Ies Bq) as (r & Er & M). exists r. rewrite Er.
      assert (e1 = []) by (destruct e1; [reflexivity | rewrite zlen_cons in Lk; pose proof (zlen_nonneg e1); lia]). subst e1.
      cbn [concat]. change (zlen (@nil (list Z))) with 0. rewrite Z.add_0_l.
      destruct o; try (contradiction No; reflexivity); split; try reflexivity; split; try reflexivity; rewrite Ins; exact M.
    + destruct es as [|e es]; [contradiction|].
      assert (Fe : first_of ess (found - 1) = e) by (unfold first_of; rewrite E2, <- L2, nth_middle_eq; reflexivity).
      destruct (linear_contains_skip (c_set c) e es q B He Sh Ies Bq) as (r & Er & M); [rewrite <- Fe; apply Lo; lia|]. exists r. rewrite Er.
      destruct c1 as [|cb c1] using rev_ind; [cbn in L1; lia|]. clear IHc1.
      assert (Nb : nth_error chunks (Z.to_nat (found - 1 - 1)) = Some cb).
      { rewrite E1, <- app_assoc. rewrite app_length in L1. cbn [length] in L1. replace (Z.to_nat (found - 1 - 1)) with (length c1) by lia.
        rewrite nth_error_app2, Nat.sub_diag by lia. reflexivity. }
      rewrite Nb. pose proof (chunked_back _ _ _ H1) as Bk. rewrite rev_app_distr in Bk. cbn [rev app] in Bk. rewrite Bk.
      destruct o; try (contradiction No; reflexivity); (split; [f_equal; f_equal; lia | split; [reflexivity | rewrite Ins; exact M]]).
Qed.
(** Whatever the order of elements, contains() is defined. *)
Lemma CSet_contains_total chunks ess q : chunked 0 chunks ess -> bytes q ->
  exists r i, CSet_contains_index chunks q = Some (r, i) /\ CSet_contains chunks q = Some r.
Proof.
  intros H Bq. pose proof (chunked_forall _ _ _ H) as F. pose proof (chunked_length _ _ _ H) as L. destruct chunks as [|c0 cs0] eqn:Ec; [eexists _, _; split; reflexivity|].
  unfold CSet_contains_index, CSet_contains. rewrite <- Ec in *.
  assert (N1 : 1 <= zlen chunks) by (rewrite Ec, zlen_cons; pose proof (zlen_nonneg cs0); lia).
  destruct (pure_search (fun p => ordering_of (lex_cmp (first_of ess p) q)) (CompareFirst chunks q) 1 (zlen chunks) (2 * length chunks + 1)) as ([o found] & log & E & O & Ft).
  { unfold zlen. lia. }
  { intros p Hp. apply CompareFirst_ok; [exact F|lia]. }
  destruct (outcome_range (fun p => ordering_of (lex_cmp (first_of ess p) q)) _ _ _ _ N1 O Ft) as [R _]. cbn [snd] in R. unfold find_chunk. rewrite E. cbv zeta.
  destruct (chunked_split 0 chunks ess (Z.to_nat (found - 1)) H) as (c1 & c & c2 & e1 & es & e2 & E1 & E2 & L1 & L2 & H1 & (B & He & Sh & Nes) & En & H2);
    [unfold zlen in R; lia|].
  assert (Nc : nth_error chunks (Z.to_nat (found - 1)) = Some c) by (rewrite E1, <- L1, nth_error_app2, Nat.sub_diag by lia; reflexivity).
  rewrite Nc. destruct es as [|e es]; [contradiction|].
  rewrite (Set_contains_scan (c_set c) (e :: es) q B He Sh Bq), (Set_contains_skip_scan (c_set c) e es q B He Sh Bq).
  destruct (scan q (e :: es) 0) as [r i], (scan q es 1) as [r' i'].
  destruct (Z.eqb_spec (found - 1) 0) as [K|K].
  - destruct o; eexists _, _; split; reflexivity.
  - assert (Nb : exists cb, nth_error chunks (Z.to_nat (found - 1 - 1)) = Some cb).
    { destruct (nth_error chunks (Z.to_nat (found - 1 - 1))) eqn:Q; [eauto|]. apply nth_error_None in Q. unfold zlen in R. lia. }
    destruct Nb as (cb & ->). destruct o; eexists _, _; split; reflexivity.
Qed.
