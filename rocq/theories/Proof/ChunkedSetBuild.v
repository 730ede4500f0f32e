(** ChunkedSortedStringSet::Builder: proofs for C40. *)
From Verif Require Import Base.Bytes Spec.VarintSpec Spec.StringSetSpec Model.Varint Model.StringSet Spec.StringSetCalls Proof.StringSetProof
  Proof.StringSetQuery Proof.StringSetBuild Proof.StringSetDecode Model.ChunkedStringSet Spec.ChunkedStringSetSpec Proof.ChunkedSetProof Proof.ChunkedSetContains.

(** The representation of a chunk is that made by a builder from its elements. *)
Definition canonical (enc : list Z) (es : list (list Z)) : Prop :=
  exists b, insert_all false Builder_new es = Some b /\ b_writer b = enc.
Definition cb_ok (n : Z) (b : cbuilder) (ess : list (list (list Z))) (es : list (list Z)) : Prop :=
  cb_chunk_size b = n /\ chunked 0 (cb_chunks b) ess /\ Forall (fun es => zlen es = n) ess /\ builder_ok (cb_current b) es /\ zlen es <= n /\
  (ess <> [] -> es <> []) /\ increasing (concat ess ++ es) /\
  Forall2 (fun c es => canonical (c_set c) es) (cb_chunks b) ess /\ insert_all false Builder_new es = Some (cb_current b).

Lemma cbuilder_new_ok n : 1 <= n -> cb_ok n (CBuilder_new n) [] [].
Proof.
  intros H. split; [reflexivity|]. split; [exact Logic.I|]. split; [constructor|]. split; [exact builder_new_ok|]. split; [cbn; lia|].
  split; [auto|]. split; [constructor|]. split; [constructor | reflexivity].
Qed.
Lemma last_of_app a b : b <> [] -> last_of (a ++ b) = last_of b.
Proof.
  intros N. unfold last_of. rewrite rev_app_distr. destruct (rev b) as [|x r] eqn:R; [|reflexivity].
  apply (f_equal (@rev _)) in R. rewrite rev_involutive in R. contradiction.
Qed.
Lemma cb_last n b ess es : cb_ok n b ess es -> last_of (concat ess ++ es) = last_of es.
Proof.
  intros (_ & _ & _ & _ & _ & Ne & _). destruct es as [|e es]; [|apply last_of_app; discriminate].
  destruct ess as [|x ess]; [reflexivity|]. exfalso. apply Ne; [discriminate | reflexivity].
Qed.
Lemma insert_canonical moved b es e : builder_ok b es -> bytes e -> short e -> fresh (last_of es) e = true ->
  insert_all false Builder_new es = Some b -> exists b', TryInsertNext moved b e = Some (b', Inserted true) /\ builder_ok b' (es ++ [e]) /\
    insert_all false Builder_new (es ++ [e]) = Some b'.
Proof.
  intros Ok Be Se Fr Can. destruct (TryInsertNext_ok moved b es e Ok Be Se) as (b' & E & Ok'). rewrite Fr in Ok'.
  assert (R : insert_result (last_of es) e = Inserted true).
  { unfold insert_result, fresh, lessb in *. destruct (last_of es) as [l|]; [|reflexivity]. rewrite (lex_cmp_antisym l e).
    destruct (lex_cmp l e); [discriminate | reflexivity | discriminate]. }
  rewrite R in E. exists b'. split; [exact E|]. split; [exact Ok'|]. rewrite insert_all_snoc, Can. unfold InsertNext.
  rewrite (TryInsertNext_moved moved b es e Ok Be Se) in E. rewrite E. reflexivity.
Qed.
Lemma concat_snoc (ess : list (list (list Z))) es : concat (ess ++ [es]) = concat ess ++ es.
Proof. rewrite concat_app. cbn [concat]. rewrite app_nil_r. reflexivity. Qed.
Lemma AddChunk_ok n b ess es : cb_ok n b ess es -> es <> [] ->
  cb_chunks (AddChunk b) = cb_chunks b ++ [{| c_set := b_writer (cb_current b); c_end := zlen (concat ess ++ es) |}] /\
  chunked 0 (cb_chunks (AddChunk b)) (ess ++ [es]) /\ Forall2 (fun c es => canonical (c_set c) es) (cb_chunks (AddChunk b)) (ess ++ [es]) /\
  cb_current (AddChunk b) = Builder_new /\ cb_chunk_size (AddChunk b) = n.
Proof.
  intros (Cs & Ch & Sz & (H & Bw & Bz & La & Inc & Bes & Ses) & Lz & Ne & Ai & Can & Cur) N.
  assert (E : cb_chunks (AddChunk b) = cb_chunks b ++ [{| c_set := b_writer (cb_current b); c_end := zlen (concat ess ++ es) |}]).
  { unfold AddChunk. cbn [Build cb_chunks]. rewrite (back_end_ok _ _ Ch), Bz, zlen_app. reflexivity. }
  split; [exact E|]. rewrite E. split.
  - apply chunked_app; [exact Ch|]. cbn [chunked]. unfold chunk_of. cbn [c_set c_end]. rewrite zlen_app. repeat split; auto.
  - split; [|split; [reflexivity | exact Cs]]. apply Forall2_app; [exact Can|]. constructor; [|constructor]. exists (cb_current b). auto.
Qed.
Lemma fresh_app n b ess es e : cb_ok n b ess es -> fresh (last_of es) e = true -> increasing ((concat ess ++ es) ++ [e]).
Proof.
  intros Ok Fr. pose proof (cb_last _ _ _ _ Ok) as La. pose proof Ok as (_ & _ & _ & _ & _ & _ & Inc & _).
  apply increasing_snoc; [exact Inc|]. rewrite La. intros x Hx. rewrite Hx in Fr. unfold fresh, lessb in Fr.
  destruct (lex_cmp x e) eqn:C; try discriminate. exact C.
Qed.
Lemma CTryInsertNext_ok n moved b ess es e : 1 <= n -> cb_ok n b ess es -> bytes e -> short e ->
  exists b' ess' es', CTryInsertNext moved b e = Some (b', insert_result (last_of (concat ess ++ es)) e) /\ cb_ok n b' ess' es' /\
    concat ess' ++ es' = (if fresh (last_of (concat ess ++ es)) e then (concat ess ++ es) ++ [e] else concat ess ++ es).
Proof.
  intros Hn Ok Be Se. rewrite (cb_last _ _ _ _ Ok). pose proof Ok as (Cs & Ch & Sz & Bo & Lz & Ne & Ai & Can & Cur).
  pose proof Bo as (H & Bw & Bz & La & Inc & Bes & Ses).
  unfold CTryInsertNext. rewrite Cs, Bz. destruct (Z.eqb_spec (zlen es) n) as [En|En].
  - assert (Nes : es <> []) by (intros ->; change (zlen (@nil (list Z))) with 0 in En; lia).
    replace (zlen es =? 0) with false by lia. cbn [negb guard].
    destruct es as [|e0 es0] eqn:Ees; [contradiction|]. rewrite last_of_cons. rewrite La, last_cons_eq. rewrite <- Ees in *.
    set (l := last es0 e0). rewrite not_fresh. unfold insert_result. destruct (fresh (Some l) e) eqn:Fr; cbn [negb].
    + (* a new chunk *)
      destruct (AddChunk_ok n b ess es Ok Nes) as (Ec & Ch' & Can' & Cur' & Cs').
      assert (Frn : fresh (last_of es) e = true) by (rewrite Ees, last_of_cons; exact Fr).
      pose proof (fresh_app n b ess es e Ok Frn) as Inc'.
      rewrite Cur'. destruct (insert_canonical moved Builder_new [] e builder_new_ok Be Se eq_refl eq_refl) as (b' & E & Ok' & Can2).
      cbn [app] in Ok', Can2. rewrite E. eexists _, (ess ++ [es]), [e]. split; [|split].
      * do 2 f_equal. unfold fresh, lessb in Fr. rewrite (lex_cmp_antisym l e). destruct (lex_cmp l e); [discriminate | reflexivity | discriminate].
      * unfold cb_ok. cbn [cb_chunk_size cb_chunks cb_current]. split; [exact Cs'|]. split; [exact Ch'|].
        split; [apply Forall_app; split; [exact Sz | constructor; [exact En | constructor]]|]. split; [exact Ok'|]. split; [cbn; lia|].
        split; [discriminate|]. rewrite concat_snoc. split; [exact Inc'|]. split; [exact Can' | exact Can2].
      * rewrite concat_snoc. reflexivity.
    + eexists b, ess, es. split; [|split; [exact Ok | reflexivity]]. do 2 f_equal. unfold fresh, lessb in Fr.
      rewrite (lex_cmp_antisym l e). destruct (lex_cmp l e) eqn:C; cbn [CompOpp]; [|discriminate|].
      * apply lex_cmp_eq in C. subst e. rewrite list_eqb_refl. reflexivity.
      * destruct (list_eqb e l) eqn:Q; [|reflexivity]. apply list_eqb_eq in Q. subst e. rewrite lex_cmp_refl in C. discriminate.
  - destruct (fresh (last_of es) e) eqn:Fr.
    + destruct (insert_canonical moved (cb_current b) es e Bo Be Se Fr Cur) as (b' & E & Ok' & Can'). rewrite E. eexists _, ess, (es ++ [e]). split; [|split].
      * do 2 f_equal. unfold insert_result, fresh, lessb in *. destruct (last_of es) as [l|]; [|reflexivity]. rewrite (lex_cmp_antisym l e).
        destruct (lex_cmp l e); [discriminate | reflexivity | discriminate].
      * unfold cb_ok. cbn [cb_chunk_size cb_chunks cb_current]. split; [reflexivity|]. split; [exact Ch|]. split; [exact Sz|]. split; [exact Ok'|].
        split; [rewrite zlen_app; change (zlen [e]) with 1; lia|]. split; [intros _ Q; destruct es; discriminate Q|]. rewrite app_assoc.
        split; [apply (fresh_app n b ess es e Ok Fr) | split; assumption].
      * rewrite app_assoc. reflexivity.
    + destruct (TryInsertNext_ok moved (cb_current b) es e Bo Be Se) as (b' & E & _).
      destruct (not_fresh_same moved (cb_current b) es e Bo Be Se Fr) as (r & E'). rewrite E in E'. injection E' as -> _. rewrite E.
      eexists _, ess, es. split; [reflexivity|]. split; [|reflexivity]. destruct b as [c1 c2 c3]. cbn [cb_chunk_size cb_chunks cb_current] in *. subst c1. exact Ok.
Qed.
Lemma c_try_inserts_ok n calls : 1 <= n -> forall b ess es, cb_ok n b ess es -> Forall bytes (map snd calls) -> Forall short (map snd calls) ->
  exists b' ess' es', c_try_inserts b calls = Some (b', insert_results (last_of (concat ess ++ es)) (map snd calls)) /\ cb_ok n b' ess' es' /\
    concat ess' ++ es' = (concat ess ++ es) ++ kept (last_of (concat ess ++ es)) (map snd calls).
Proof.
  intros Hn. induction calls as [|(moved, e) calls IH]; intros b ess es Ok B Sh; cbn [map snd c_try_inserts insert_results kept].
  - exists b, ess, es. rewrite app_nil_r. auto.
  - inversion B as [|u v Be Bes]; subst u v. inversion Sh as [|u v Se Ses]; subst u v.
    destruct (CTryInsertNext_ok n moved b ess es e Hn Ok Be Se) as (b1 & ess1 & es1 & E & Ok1 & C1). rewrite E.
    destruct (IH b1 ess1 es1 Ok1 Bes Ses) as (b2 & ess2 & es2 & E2 & Ok2 & C2). rewrite E2. exists b2, ess2, es2. rewrite C1 in *. clear E E2.
    destruct (fresh (last_of (concat ess ++ es)) e) eqn:Fr.
    + rewrite !last_of_snoc in *. split; [reflexivity|]. split; [exact Ok2|]. rewrite C2, <- app_assoc. reflexivity.
    + split; [reflexivity|]. split; [exact Ok2 | exact C2].
Qed.
Lemma chunk_sizes_app n ess es : Forall (fun es => zlen es = n) ess -> zlen es <= n -> chunk_sizes n (ess ++ [es]).
Proof.
  induction 1 as [|x ess H F IH]; intros L; [exact L|]. specialize (IH L). cbn [app chunk_sizes]. destruct (ess ++ [es]) eqn:Q; [destruct ess; discriminate|].
  split; [exact H | exact IH].
Qed.
Lemma chunk_sizes_all n ess : Forall (fun es => zlen es = n) ess -> chunk_sizes n ess.
Proof. induction 1 as [|x ess H F IH]; [exact Logic.I|]. cbn [chunk_sizes]. destruct ess; [lia | split; assumption]. Qed.
Lemma CBuild_ok n b ess es : cb_ok n b ess es ->
  exists ess', chunked 0 (fst (CBuild b)) ess' /\ concat ess' = concat ess ++ es /\ chunk_sizes n ess' /\
    Forall2 (fun c es => canonical (c_set c) es) (fst (CBuild b)) ess' /\ snd (CBuild b) = CBuilder_new n.
Proof.
  intros Ok. pose proof Ok as (Cs & Ch & Sz & Bo & Lz & Ne & Ai & Can & Cur). pose proof Bo as (H & Bw & Bz & La & Inc & Bes & Ses).
  unfold CBuild. rewrite Bz. destruct es as [|e0 es0].
  - cbn [negb]. change (zlen (@nil (list Z)) =? 0) with true. cbn [negb fst snd]. exists ess. rewrite app_nil_r.
    split; [exact Ch|]. split; [reflexivity|]. split; [apply chunk_sizes_all; exact Sz|]. split; [exact Can|].
    unfold CBuilder_new. rewrite Cs. cbn [insert_all] in Cur. injection Cur as <-. reflexivity.
  - replace (zlen (e0 :: es0) =? 0) with false by (rewrite zlen_cons; pose proof (zlen_nonneg es0); lia). cbn [negb].
    destruct (AddChunk_ok n b ess (e0 :: es0) Ok ltac:(discriminate)) as (Ec & Ch' & Can' & Cur' & Cs'). cbn [fst snd].
    exists (ess ++ [e0 :: es0]). rewrite concat_snoc. split; [exact Ch'|]. split; [reflexivity|]. split; [apply chunk_sizes_app; assumption|].
    split; [exact Can'|]. rewrite Cur', Cs'. reflexivity.
Qed.
(** The chunks are a function of the elements and of the chunk size. *)
Lemma app_inj_l_len {A} (a b s t : list A) : a ++ s = b ++ t -> length a = length b -> a = b /\ s = t.
Proof.
  revert b; induction a as [|x a IH]; intros [|y b] E L; try discriminate; [auto|]. injection E as -> E. injection L as L.
  destruct (IH b E L) as [-> ->]. auto.
Qed.
Lemma chunk_sizes_det n : 1 <= n -> forall a b, Forall (fun es => es <> []) a -> Forall (fun es => es <> []) b -> chunk_sizes n a -> chunk_sizes n b ->
  concat a = concat b -> a = b.
Proof.
  intros Hn. assert (Ze : forall l : list (list Z), l <> [] -> 1 <= zlen l).
  { intros [|x l] Hl; [contradiction|]. rewrite zlen_cons. pose proof (zlen_nonneg l). lia. }
  induction a as [|x a IH]; intros [|y b] Na Nb Sa Sb E.
  - reflexivity.
  - exfalso. inversion Nb as [|u v N1 _]; subst. cbn [concat] in E. destruct y; [contradiction | discriminate E].
  - exfalso. inversion Na as [|u v N1 _]; subst. cbn [concat] in E. destruct x; [contradiction | discriminate E].
  - inversion Na as [|u v N1 Na']; subst u v. inversion Nb as [|u v N2 Nb']; subst u v.
    assert (Cx : forall z l, chunk_sizes n (z :: l) -> Forall (fun es => es <> []) l -> zlen z <= n /\ chunk_sizes n l /\ (l <> [] -> zlen z = n) /\ (l = [] \/ n < zlen (concat (z :: l)))).
    { intros z l Hz Nl. cbn [chunk_sizes] in Hz. destruct l as [|w l]; [split; [exact Hz|]; split; [exact Logic.I|]; split; [congruence | auto]|]. destruct Hz as [Hz Hl].
      split; [lia|]. split; [exact Hl|]. split; [auto|]. right. cbn [concat]. rewrite !zlen_app. inversion Nl as [|u v N3 _]; subst. apply Ze in N3.
      pose proof (zlen_nonneg (concat l)). lia. }
    destruct (Cx x a Sa Na') as (Lx & Sa' & Fx & Ax). destruct (Cx y b Sb Nb') as (Ly & Sb' & Fy & By).
    assert (Lxy : length x = length y).
    { destruct a as [|x2 a], b as [|y2 b].
      - cbn [concat] in E. rewrite !app_nil_r in E. congruence.
      - exfalso. destruct By as [By|By]; [discriminate|]. rewrite <- E in By. cbn [concat] in By. rewrite app_nil_r in By. lia.
      - exfalso. destruct Ax as [Ax|Ax]; [discriminate|]. rewrite E in Ax. cbn [concat] in Ax. rewrite app_nil_r in Ax. lia.
      - assert (zlen x = n) by (apply Fx; discriminate). assert (zlen y = n) by (apply Fy; discriminate). unfold zlen in *. lia. }
    cbn [concat] in E. apply app_inj_l_len in E; [|exact Lxy]. destruct E as [-> E]. f_equal. apply IH; assumption.
Qed.
Lemma chunks_det start : forall ess a b, chunked start a ess -> chunked start b ess ->
  Forall2 (fun c es => canonical (c_set c) es) a ess -> Forall2 (fun c es => canonical (c_set c) es) b ess -> a = b.
Proof.
  intros ess; revert start; induction ess as [|es ess IH]; intros start [|x a] [|y b] Ha Hb Ca Cb; cbn [chunked] in *; try tauto.
  destruct Ha as (_ & Ea & Ha), Hb as (_ & Eb & Hb).
  inversion Ca as [|u v w z (bx & E1 & E2) Fa]; subst u v w z. inversion Cb as [|u v w z (by_ & E3 & E4) Fb]; subst u v w z. f_equal; [|eapply IH; eassumption].
  destruct x as [sx ex], y as [sy ey]. cbn [c_set c_end] in *. f_equal; congruence.
Qed.
Lemma c_insert_all_try moved src : forall b b', c_insert_all moved b src = Some b' ->
  exists rs, c_try_inserts b (map (pair moved) src) = Some (b', rs) /\ Forall (fun r => r <> Failed) rs.
Proof.
  induction src as [|e src IH]; intros b b' H; cbn [c_insert_all map c_try_inserts] in *; [exists []; split; [congruence | constructor]|].
  unfold CInsertNext in H. destruct (CTryInsertNext moved b e) as [[b1 [r|]]|]; try discriminate. apply IH in H. destruct H as (rs & -> & F).
  exists (Inserted r :: rs). split; [reflexivity | constructor; [discriminate | exact F]].
Qed.
Lemma c_try_insert_all moved src : forall b b' rs, c_try_inserts b (map (pair moved) src) = Some (b', rs) -> Forall (fun r => r <> Failed) rs ->
  c_insert_all moved b src = Some b'.
Proof.
  induction src as [|e src IH]; intros b b' rs H F; cbn [c_insert_all map c_try_inserts] in *; [congruence|].
  unfold CInsertNext. destruct (CTryInsertNext moved b e) as [[b1 r]|]; [|discriminate].
  destruct (c_try_inserts b1 (map (pair moved) src)) as [[b2 rs2]|] eqn:E; [|discriminate]. injection H as <- <-. inversion F as [|u v N F']; subst u v.
  destruct r as [r|]; [|contradiction]. apply IH with rs2; assumption.
Qed.
(** No call fails iff the elements are sorted (duplicates allowed). *)
Lemma results_sorted src : forall last, Forall (fun r => r <> Failed) (insert_results last src) <->
  sorted (match last with None => src | Some l => l :: src end).
Proof.
  induction src as [|e src IH]; intros last; cbn [insert_results].
  - split; [intros _; destruct last; repeat constructor | constructor].
  - rewrite Forall_cons_iff, IH. unfold insert_result, fresh, lessb. destruct last as [l|].
    + rewrite (lex_cmp_antisym l e). destruct (lex_cmp l e) eqn:C; cbn [CompOpp].
      * apply lex_cmp_eq in C. subst e. split.
        -- intros [_ So]. constructor; [exact So|]. constructor; [rewrite lex_cmp_refl; discriminate|]. inversion So; assumption.
        -- intros So. split; [discriminate|]. inversion So; assumption.
      * split.
        -- intros [_ So]. constructor; [exact So|]. inversion So as [|u v Sv A]; subst. constructor; [congruence|].
           eapply Forall_impl; [|exact A]. cbv beta. intros a Ha. apply le_trans_lex with e; congruence.
        -- intros So. split; [discriminate|]. inversion So; assumption.
      * split; [intros [N _]; congruence|]. intros So. exfalso. inversion So as [|u v _ A]; subst. inversion A as [|u v N _]; subst. congruence.
    + split; [intros [_ So]; exact So | intros So; split; [discriminate | exact So]].
Qed.
