(** LinearSortedStringSet: the builder and Decode(). *)
From Verif Require Import Base.Bytes Spec.VarintSpec Spec.StringSetSpec Model.Varint Model.StringSet Spec.StringSetCalls Proof.VarintProof Proof.CodecLemmas
  Proof.CommonPrefixProof Proof.StringSetProof Proof.StringSetQuery.

Lemma write_varint_of v : 0 <= v < 2 ^ 64 -> varint_of v (WriteVarint V64 v) /\ bytes (WriteVarint V64 v).
Proof.
  intros H. destruct (varint64_round_trip false v [] H bytes_nil) as (B & _ & _ & R & _ & _). cbv zeta in *. split; [|exact B].
  rewrite app_nil_r in R. apply (read_varint_exact V64 false _ (or_intror eq_refl) B) in R.
  destruct R as (l & rest & E & V & L & M & Ev & Lt & _).
  assert (El : l = WriteVarint V64 v).
  { rewrite E. apply (f_equal (@length Z)) in E. rewrite app_length in E. destruct rest; [rewrite app_nil_r; reflexivity | cbn [length] in E; lia]. }
  rewrite <- El. repeat split; auto; try lia. rewrite L. exact M.
Qed.

Lemma encodes_app prev e1 es1 e2 es2 : encodes prev e1 es1 -> encodes (last es1 prev) e2 es2 -> encodes prev (e1 ++ e2) (es1 ++ es2).
Proof.
  intros H; revert e2 es2; induction H as [prev | prev t u enc es V H IH | prev t s n u enc es V Vs Hn H IH]; intros e2 es2 H2.
  - exact H2.
  - rewrite last_cons_eq in H2. rewrite <- !app_assoc. apply encodes_unshared; auto.
  - rewrite last_cons_eq in H2. rewrite <- !app_assoc. apply encodes_shared; auto.
Qed.
Lemma last_default (es : list (list Z)) d d' : es <> [] -> last es d = last es d'.
Proof. destruct es as [|e es]; [contradiction|]. intros _. rewrite !last_cons_eq. reflexivity. Qed.

(** ** Builder *)
Definition builder_ok (b : builder) (es : list (list Z)) : Prop :=
  set_encoding (b_writer b) es /\ bytes (b_writer b) /\ b_size b = zlen es /\ b_last b = last es [] /\ increasing es /\
  Forall bytes es /\ Forall short es.
Lemma builder_new_ok : builder_ok Builder_new [].
Proof. repeat split; try constructor. Qed.

Lemma tagged_ok u (b : bool) : 0 <= u < 2 ^ 62 -> Z.lor (u64 (Z.shiftl u 1)) (if b then 1 else 0) = 2 * u + (if b then 1 else 0).
Proof.
  intros H. assert (Sh : Z.shiftl u 1 = 2 * u) by (rewrite Z.shiftl_mul_pow2 by lia; change (2 ^ 1) with 2; lia).
  rewrite u64_small by lia. rewrite Z.lor_comm, lor_shl_add by (destruct b; cbn; lia). destruct b; lia.
Qed.
Lemma increasing_snoc es e : increasing es -> (forall x, last_of es = Some x -> lex_lt x e) -> increasing (es ++ [e]).
Proof.
  induction es as [|y es IH]; intros H L; [constructor; constructor|]. apply increasing_cons in H. destruct H as [H A].
  cbn [app]. apply increasing_cons. destruct es as [|z es].
  - split; [constructor; constructor|]. constructor; [|constructor]. apply L. reflexivity.
  - rewrite last_of_cons in L, IH. rewrite last_cons_eq in L. split; [apply IH; auto|]. apply Forall_app. split; [exact A|].
    constructor; [|constructor]. specialize (L _ eq_refl).
    assert (In (last es z) (z :: es)) by (clear; revert z; induction es as [|w es IHe]; intros z; [left; reflexivity | rewrite last_cons_eq; right; apply IHe]).
    apply lex_lt_trans with (last es z); [|exact L]. apply (proj1 (Forall_forall _ _) A). assumption.
Qed.
Lemma last_of_nil es : last_of es = None <-> es = [].
Proof. split; [|intros ->; reflexivity]. destruct es as [|e es]; [reflexivity|]. rewrite last_of_cons. discriminate. Qed.
Lemma last_of_last es l : last_of es = Some l -> last es [] = l.
Proof. destruct es as [|e es]; [discriminate|]. rewrite last_of_cons, last_cons_eq. congruence. Qed.

Lemma update_last_ok (moved : bool) last e n : 0 <= n <= lcp last e ->
  (if moved then update_last_string else update_last_view) last e n = (e, zdrop n e).
Proof.
  intros H. destruct moved; unfold update_last_string, update_last_view; [reflexivity|]. f_equal.
  rewrite (lcp_take last e n) by lia. apply ztake_zdrop.
Qed.
Lemma TryInsertNext_ok moved b es e : builder_ok b es -> bytes e -> short e ->
  exists b', TryInsertNext moved b e = Some (b', insert_result (last_of es) e) /\
    builder_ok b' (if fresh (last_of es) e then es ++ [e] else es).
Proof.
  intros Ok Be Se. pose proof Ok as (H & Bw & Sz & La & Inc & Bes & Ses). pose proof (short_bound _ Se) as Se'.
  unfold TryInsertNext, InsertNextImpl.
  assert (Bl : bytes (b_last b)).
  { rewrite La. destruct es as [|x es]; [constructor|]. rewrite last_cons_eq. clear - Bes. revert x Bes.
    induction es as [|y es IH]; intros x Bes; inversion Bes; subst; [assumption|]. rewrite last_cons_eq. apply IH. assumption. }
  rewrite CommonPrefix_ok by assumption. set (n := lcp (b_last b) e).
  pose proof (lcp_le (b_last b) e) as Ln. pose proof (lcp_nonneg (b_last b) e) as Nn. fold n in Ln, Nn.
  rewrite !substr_some by lia.
  assert (Cmp : lex_cmp (zdrop n e) (zdrop n (b_last b)) = lex_cmp e (b_last b)).
  { rewrite lex_cmp_antisym. unfold n. rewrite <- lex_cmp_lcp. symmetry. apply lex_cmp_antisym. }
  assert (Eqb : list_eqb (zdrop n e) (zdrop n (b_last b)) = match lex_cmp e (b_last b) with Eq => true | _ => false end).
  { apply list_eqb_iff. rewrite <- Cmp. rewrite <- lex_cmp_eq. destruct (lex_cmp (zdrop n e) (zdrop n (b_last b))); split; congruence. }
  unfold str_leb. rewrite Cmp, Eqb.
  destruct (last_of es) as [l|] eqn:Lo.
  - assert (En : es <> []) by (intros ->; discriminate). apply last_of_last in Lo as Ll. rewrite <- La in Ll. rewrite Ll in *.
    assert (Sz0 : (b_size b =? 0) = false) by (rewrite Sz; destruct es; [contradiction|]; rewrite zlen_cons; pose proof (zlen_nonneg es); lia).
    rewrite Sz0. cbn [negb]. rewrite andb_true_r. unfold insert_result, fresh, lessb. rewrite (lex_cmp_antisym e l).
    destruct (lex_cmp e l) eqn:C; cbn [CompOpp]; try (eexists; split; [reflexivity|]; exact Ok).
    set (m := if n =? 1 then 0 else n).
    assert (Nl : lcp l e = n) by (unfold n; rewrite ?Ll; reflexivity).
    assert (Hm : 0 <= m <= lcp l e) by (rewrite Nl; subst m; clearbody n; destruct (Z.eqb_spec n 1); lia).
    rewrite update_last_ok by exact Hm. eexists; split; [reflexivity|].
    assert (Hu : 0 <= zlen (zdrop m e) < 2 ^ 62) by (rewrite zlen_zdrop; lia).
    rewrite tagged_ok by exact Hu.
    destruct (write_varint_of (2 * zlen (zdrop m e) + (if 0 <? m then 1 else 0))) as [Vt Bt]; [destruct (0 <? m); lia|].
    assert (Ee : ztake m l ++ zdrop m e = e) by (rewrite (lcp_take l e m) by lia; apply ztake_zdrop).
    assert (One : encodes (last es []) (WriteVarint V64 (2 * zlen (zdrop m e) + (if 0 <? m then 1 else 0)) ++
                  (if 0 <? m then WriteVarint V64 (m - 1) else []) ++ zdrop m e) [e] /\
                  bytes (if 0 <? m then WriteVarint V64 (m - 1) else [])).
    { rewrite <- La. rewrite <- (app_nil_r (zdrop m e)) at 2. destruct (Z.ltb_spec 0 m) as [Lm|Lm].
      - destruct (write_varint_of (m - 1)) as [Vs Bs]; [lia|]. split; [|exact Bs]. rewrite <- Ee at 3.
        apply encodes_shared; auto; [lia|]. constructor.
      - split; [|constructor]. rewrite Z.add_0_r in *. replace m with 0 in * by lia. rewrite (zdrop_nonpos 0) in * by lia.
        cbn [app]. apply encodes_unshared; [exact Vt|]. constructor. }
    destruct One as [One Bs].
    unfold builder_ok; cbn [b_writer b_size b_last]. repeat split.
    + apply encodes_app; assumption.
    + rewrite !bytes_app. repeat split; auto. apply bytes_zdrop. exact Be.
    + rewrite Sz, zlen_app. reflexivity.
    + rewrite last_last. reflexivity.
    + apply increasing_snoc; [exact Inc|]. rewrite Lo. intros x E. injection E as <-. unfold lex_lt. rewrite lex_cmp_antisym, C. reflexivity.
    + apply Forall_app; split; auto.
    + apply Forall_app; split; auto.
  - apply last_of_nil in Lo. subst es. cbn in La, Sz. rewrite La in *. rewrite Sz, Z.eqb_refl. cbn [negb]. rewrite andb_false_r.
    assert (N0 : n = 0) by (unfold n; rewrite ?La; destruct e; reflexivity). rewrite N0 in *.
    cbn [Z.eqb]. rewrite update_last_ok by (pose proof (lcp_nonneg [] e); lia). cbn [Z.ltb Z.compare]. eexists; split; [reflexivity|].
    rewrite (zdrop_nonpos 0) by lia. cbn [fresh app]. rewrite (tagged_ok (zlen e) false), Z.add_0_r by lia.
    destruct (write_varint_of (2 * zlen e)) as [Vt Bt]; [lia|].
    unfold builder_ok; cbn [b_writer b_size b_last]. inversion H; subst; repeat split; auto.
    + cbn [app]. rewrite <- (app_nil_r e) at 2. apply encodes_unshared; [exact Vt|]. constructor.
    + cbn [app]. rewrite bytes_app. split; assumption.
    + constructor; constructor.
Qed.

Lemma last_of_snoc es e : last_of (es ++ [e]) = Some e.
Proof. unfold last_of. rewrite rev_app_distr. reflexivity. Qed.
Lemma try_inserts_ok calls : forall b es, builder_ok b es -> Forall bytes (map snd calls) -> Forall short (map snd calls) ->
  exists b', try_inserts b calls = Some (b', insert_results (last_of es) (map snd calls)) /\
    builder_ok b' (es ++ kept (last_of es) (map snd calls)).
Proof.
  induction calls as [|(moved, e) calls IH]; intros b es Ok B Sh; cbn [map snd try_inserts insert_results kept] in *.
  - exists b. rewrite app_nil_r. auto.
  - inversion B as [|u v Be Bes]; subst u v. inversion Sh as [|u v Se Ses]; subst u v.
    destruct (TryInsertNext_ok moved b es e Ok Be Se) as (b' & -> & Ok').
    destruct (IH b' _ Ok' Bes Ses) as (b'' & -> & Ok''). exists b''. destruct (fresh (last_of es) e).
    + rewrite last_of_snoc, <- app_assoc in *. auto.
    + auto.
Qed.

Lemma insert_all_ok moved src : forall b es, builder_ok b es -> Forall bytes src -> Forall short src ->
  sorted (match last_of es with None => src | Some l => l :: src end) ->
  exists b', insert_all moved b src = Some b' /\ builder_ok b' (es ++ kept (last_of es) src).
Proof.
  induction src as [|e src IH]; intros b es Ok B Sh So; cbn [insert_all kept].
  - exists b. rewrite app_nil_r. auto.
  - inversion B as [|u v Be Bes]; subst u v. inversion Sh as [|u v Se Ses]; subst u v.
    destruct (TryInsertNext_ok moved b es e Ok Be Se) as (b' & E & Ok').
    assert (R : insert_result (last_of es) e = Inserted (fresh (last_of es) e)).
    { unfold insert_result, fresh, lessb. destruct (last_of es) as [l|]; [|reflexivity]. inversion So as [|u v _ F]; subst.
      inversion F as [|u v Le _]; subst. rewrite (lex_cmp_antisym l e). destruct (lex_cmp l e); cbn [CompOpp]; congruence. }
    unfold InsertNext. rewrite E, R.
    destruct (fresh (last_of es) e) eqn:Fr.
    + destruct (IH b' (es ++ [e]) Ok' Bes Ses) as (b'' & -> & Ok'').
      { rewrite last_of_snoc. destruct (last_of es); [inversion So; assumption | exact So]. }
      exists b''. rewrite last_of_snoc, <- app_assoc in *. auto.
    + destruct (IH b' es Ok' Bes Ses) as (b'' & -> & Ok'').
      { destruct (last_of es); [|discriminate]. inversion So as [|u v So' F]; subst. inversion So'; inversion F; subst. constructor; assumption. }
      exists b''. auto.
Qed.
(** FromSorted() crashes exactly if the elements are not sorted. *)
Lemma insert_all_crash moved src : forall b es, builder_ok b es -> Forall bytes src -> Forall short src ->
  insert_all moved b src <> None -> sorted (match last_of es with None => src | Some l => l :: src end).
Proof.
  induction src as [|e src IH]; intros b es Ok B Sh N; cbn [insert_all] in N.
  - destruct (last_of es); repeat constructor.
  - inversion B as [|u v Be Bes]; subst u v. inversion Sh as [|u v Se Ses]; subst u v.
    destruct (TryInsertNext_ok moved b es e Ok Be Se) as (b' & E & Ok'). unfold InsertNext in N. rewrite E in N.
    assert (Tr : forall x y z, lex_cmp x y <> Gt -> lex_cmp y z <> Gt -> lex_cmp x z <> Gt).
    { intros x y z H1 H2. destruct (lex_cmp x y) eqn:C1; [apply lex_cmp_eq in C1; subst; exact H2| |congruence].
      destruct (lex_cmp y z) eqn:C2; [apply lex_cmp_eq in C2; subst; congruence| |congruence].
      rewrite (lex_lt_trans x y z C1 C2). discriminate. }
    destruct (last_of es) as [l|] eqn:Lo.
    + unfold insert_result, fresh, lessb in *. rewrite (lex_cmp_antisym l e) in *.
      destruct (lex_cmp l e) eqn:C; cbn [CompOpp] in *.
      * apply lex_cmp_eq in C. subst e. specialize (IH b' es Ok' Bes Ses N). rewrite Lo in IH. inversion IH as [|u v S1 F1]; subst u v.
        constructor; [constructor; assumption|]. constructor; [rewrite lex_cmp_refl; discriminate | exact F1].
      * specialize (IH b' (es ++ [e]) Ok' Bes Ses N). rewrite last_of_snoc in IH. constructor; [exact IH|].
        inversion IH as [|u v S1 F1]; subst u v. constructor; [congruence|]. eapply Forall_impl; [|exact F1]. intros a Ha.
        apply Tr with e; congruence.
      * congruence.
    + cbn [fresh insert_result] in *. specialize (IH b' (es ++ [e]) Ok' Bes Ses N). rewrite last_of_snoc in IH. exact IH.
Qed.

(** ** Sorting and removal of duplicates *)
Lemma sorted_insert_perm e l : Permutation (e :: l) (sorted_insert e l).
Proof.
  induction l as [|x l IH]; cbn [sorted_insert]; [reflexivity|]. destruct (str_ltb x e); [|reflexivity].
  rewrite perm_swap. constructor. exact IH.
Qed.
Lemma std_sort_perm l : Permutation l (std_sort l).
Proof. induction l as [|e l IH]; cbn [std_sort fold_right]; [reflexivity|]. rewrite IH at 1. apply sorted_insert_perm. Qed.
Lemma le_trans_lex x y z : lex_cmp x y <> Gt -> lex_cmp y z <> Gt -> lex_cmp x z <> Gt.
Proof.
  intros H1 H2. destruct (lex_cmp x y) eqn:C1; [apply lex_cmp_eq in C1; subst; exact H2| |congruence].
  destruct (lex_cmp y z) eqn:C2; [apply lex_cmp_eq in C2; subst; congruence| |congruence].
  rewrite (lex_lt_trans x y z C1 C2). discriminate.
Qed.
Lemma sorted_insert_sorted e l : sorted l -> sorted (sorted_insert e l).
Proof.
  induction 1 as [|x l H IH A]; cbn [sorted_insert]; [repeat constructor|]. unfold str_ltb. destruct (lex_cmp x e) eqn:C.
  - apply lex_cmp_eq in C. subst. constructor; [constructor; assumption|]. constructor; [rewrite lex_cmp_refl; discriminate|exact A].
  - constructor; [exact IH|]. rewrite Forall_forall in *. intros y Hy. apply (Permutation_in y (Permutation_sym (sorted_insert_perm e l))) in Hy.
    destruct Hy as [<-|Hy]; [congruence|auto].
  - assert (lex_cmp e x <> Gt) by (rewrite lex_cmp_antisym, C; discriminate).
    constructor; [constructor; assumption|]. constructor; [assumption|]. eapply Forall_impl; [|exact A]. intros y Hy. apply le_trans_lex with x; assumption.
Qed.
Lemma std_sort_sorted l : sorted (std_sort l).
Proof. induction l as [|e l IH]; cbn [std_sort fold_right]; [constructor|]. apply sorted_insert_sorted. exact IH. Qed.

Lemma kept_in src : forall last, sorted (match last with None => src | Some l => l :: src end) ->
  forall x, In x src <-> In x (kept last src) \/ (In x src /\ last = Some x).
Proof.
  induction src as [|e src IH]; intros last So x; cbn [kept]; [cbn; tauto|].
  assert (So' : sorted (e :: src)) by (destruct last; [inversion So; assumption | exact So]).
  destruct (fresh last e) eqn:Fr.
  - specialize (IH (Some e) So' x). cbn [In]. split.
    + intros [->|H]; [left; left; reflexivity|]. apply IH in H. destruct H as [H | [H E]]; [left; right; exact H|].
      injection E as ->. left; left; reflexivity.
    + intros [[->|H] | [[->|H] E]]; auto. right. apply IH. left. exact H.
  - destruct last as [l|]; [|discriminate]. unfold fresh, lessb in Fr.
    inversion So as [|u v S1 F1]; subst u v. inversion F1 as [|u v Le F2]; subst u v. inversion So' as [|u v S2 F3]; subst u v.
    assert (e = l) by (destruct (lex_cmp l e) eqn:C; [symmetry; apply lex_cmp_eq; exact C | discriminate | congruence]). subst e.
    specialize (IH (Some l) ltac:(constructor; assumption) x). cbn [In]. split.
    + intros [->|H]; [right; auto|]. apply IH in H. tauto.
    + intros [H | [[->|H] E]]; auto. right. apply IH. left. exact H.
Qed.
Lemma kept_increasing src : increasing src -> kept None src = src.
Proof.
  assert (W : forall l src, increasing (l :: src) -> kept (Some l) src = src).
  { intros l s; revert l; induction s as [|e s IH]; intros l H; [reflexivity|]. apply increasing_cons in H. destruct H as [H A].
    inversion A as [|u v Le _]; subst u v. cbn [kept fresh]. unfold lessb. unfold lex_lt in Le. rewrite Le. f_equal. apply IH. exact H. }
  intros H. destruct src as [|e src]; [reflexivity|]. cbn [kept fresh]. f_equal. apply W. exact H.
Qed.
Lemma kept_inc src : forall last, follows last (kept last src).
Proof.
  unfold follows. induction src as [|e src IH]; intros last; cbn [kept].
  - destruct last; repeat constructor.
  - destruct (fresh last e) eqn:Fr; [|apply IH]. specialize (IH (Some e)). cbv beta iota in IH. destruct last as [l|]; [|exact IH].
    unfold fresh, lessb in Fr. assert (Le : lex_lt l e) by (unfold lex_lt; destruct (lex_cmp l e); congruence).
    apply increasing_cons. split; [exact IH|]. apply increasing_cons in IH. destruct IH as [_ A]. constructor; [exact Le|].
    eapply Forall_impl; [|exact A]. intros a Ha. apply lex_lt_trans with e; assumption.
Qed.

(** ** The representation depends only on the elements inserted *)
Lemma TryInsertNext_moved moved b es e : builder_ok b es -> bytes e -> short e -> TryInsertNext moved b e = TryInsertNext false b e.
Proof.
  intros Ok Be Se. pose proof Ok as (H & Bw & Sz & La & Inc & Bes & Ses).
  assert (Bl : bytes (b_last b)).
  { rewrite La. destruct es as [|x es]; [constructor|]. rewrite last_cons_eq. clear - Bes. revert x Bes.
    induction es as [|y es IH]; intros x Bes; inversion Bes; subst; [assumption|]. rewrite last_cons_eq. apply IH. assumption. }
  unfold TryInsertNext, InsertNextImpl. rewrite CommonPrefix_ok by assumption.
  set (n := lcp (b_last b) e). pose proof (lcp_nonneg (b_last b) e) as Nn. fold n in Nn.
  rewrite !(update_last_ok _ (b_last b) e (if n =? 1 then 0 else n)) by (fold n; destruct (Z.eqb_spec n 1); lia).
  rewrite (update_last_ok false (b_last b) e (if n =? 1 then 0 else n)) by (fold n; destruct (Z.eqb_spec n 1); lia). reflexivity.
Qed.
Lemma insert_all_snoc moved src e : forall b, insert_all moved b (src ++ [e]) =
  match insert_all moved b src with Some b' => option_map fst (InsertNext moved b' e) | None => None end.
Proof.
  induction src as [|x src IH]; intros b; cbn [app insert_all].
  - destruct (InsertNext moved b e) as [[b' r]|]; reflexivity.
  - destruct (InsertNext moved b x) as [[b' r]|]; [apply IH | reflexivity].
Qed.
Lemma not_fresh_same moved b es e : builder_ok b es -> bytes e -> short e -> fresh (last_of es) e = false ->
  exists r, TryInsertNext moved b e = Some (b, r).
Proof.
  intros Ok Be Se Fr. pose proof Ok as (H & Bw & Sz & La & Inc & Bes & Ses).
  assert (Bl : bytes (b_last b)).
  { rewrite La. destruct es as [|x es]; [constructor|]. rewrite last_cons_eq. clear - Bes. revert x Bes.
    induction es as [|y es IH]; intros x Bes; inversion Bes; subst; [assumption|]. rewrite last_cons_eq. apply IH. assumption. }
  unfold TryInsertNext, InsertNextImpl. rewrite CommonPrefix_ok by assumption. set (n := lcp (b_last b) e).
  pose proof (lcp_le (b_last b) e) as Ln. pose proof (lcp_nonneg (b_last b) e) as Nn. fold n in Ln, Nn.
  rewrite !substr_some by lia.
  destruct (last_of es) as [l|] eqn:Lo; [|discriminate]. apply last_of_last in Lo as Ll. rewrite <- La in Ll.
  assert (En : es <> []) by (intros ->; discriminate).
  assert (Sz0 : (b_size b =? 0) = false) by (rewrite Sz; destruct es; [contradiction|]; rewrite zlen_cons; pose proof (zlen_nonneg es); lia).
  rewrite Sz0. cbn [negb]. rewrite andb_true_r.
  assert (Le : str_leb (zdrop n e) (zdrop n (b_last b)) = true).
  { unfold str_leb. rewrite (lex_cmp_antisym (zdrop n (b_last b)) (zdrop n e)). unfold n. rewrite <- lex_cmp_lcp, Ll.
    unfold fresh, lessb in Fr. destruct (lex_cmp l e); [reflexivity | discriminate | reflexivity]. }
  rewrite Le. destruct (list_eqb (zdrop n e) (zdrop n (b_last b))); eauto.
Qed.
Lemma try_inserts_canonical calls : forall b b' rs es, builder_ok b es -> Forall bytes (map snd calls) -> Forall short (map snd calls) ->
  insert_all false Builder_new es = Some b -> try_inserts b calls = Some (b', rs) ->
  insert_all false Builder_new (es ++ kept (last_of es) (map snd calls)) = Some b'.
Proof.
  induction calls as [|(moved, e) calls IH]; intros b b' rs es Ok B Sh Can Tr; cbn [map snd try_inserts kept] in *.
  - rewrite app_nil_r. congruence.
  - inversion B as [|u v Be Bes]; subst u v. inversion Sh as [|u v Se Ses]; subst u v.
    destruct (TryInsertNext_ok moved b es e Ok Be Se) as (b1 & E & Ok1). rewrite E in Tr.
    destruct (try_inserts b1 calls) as [[b2 rs2]|] eqn:Tr2; [|discriminate]. injection Tr as <- _.
    destruct (fresh (last_of es) e) eqn:Fr.
    + rewrite TryInsertNext_moved with (es := es) in E by assumption.
      replace (es ++ e :: kept (Some e) (map snd calls)) with ((es ++ [e]) ++ kept (last_of (es ++ [e])) (map snd calls))
        by (rewrite last_of_snoc, <- app_assoc; reflexivity).
      apply IH with b1 rs2; auto. rewrite insert_all_snoc, Can. unfold InsertNext. rewrite E.
      assert (R : insert_result (last_of es) e = Inserted true).
      { unfold insert_result, fresh, lessb in *. destruct (last_of es) as [l|]; [|reflexivity]. rewrite (lex_cmp_antisym l e).
        destruct (lex_cmp l e); [discriminate | reflexivity | discriminate]. }
      rewrite R. reflexivity.
    + destruct (not_fresh_same moved b es e Ok Be Se Fr) as (r & E'). rewrite E in E'. injection E' as -> _.
      apply IH with b rs2; auto.
Qed.
Lemma insert_all_try moved src : forall b b', insert_all moved b src = Some b' ->
  exists rs, try_inserts b (map (pair moved) src) = Some (b', rs).
Proof.
  induction src as [|e src IH]; intros b b' H; cbn [insert_all map try_inserts] in *; [exists []; congruence|].
  unfold InsertNext in H. destruct (TryInsertNext moved b e) as [[b1 [r|]]|]; try discriminate. apply IH in H. destruct H as (rs & ->). eauto.
Qed.
