(** The heap of blocks of riegeli/base/chain.cc: reference counts, changing a block in place, dropping references. *)
From Verif Require Import Base.Bytes Model.BufferSizer Model.Chain.

Fixpoint cnt (x : Z) (l : list Z) : Z := match l with [] => 0 | y :: l => (if y =? x then 1 else 0) + cnt x l end.
Lemma cnt_app x a b : cnt x (a ++ b) = cnt x a + cnt x b.
Proof. induction a as [|y a IH]; cbn [cnt app]; lia. Qed.
Lemma cnt_nonneg x l : 0 <= cnt x l.
Proof. induction l as [|y l IH]; cbn [cnt]; [lia|]. destruct (y =? x); lia. Qed.
Lemma cnt_in x l : In x l <-> 0 < cnt x l.
Proof.
  induction l as [|y l IH]; cbn [cnt In]; [lia|]. pose proof (cnt_nonneg x l).
  destruct (Z.eqb_spec y x); split; intros; try lia; try (left; assumption); [|right; apply IH; lia].
  destruct H0; [lia|]. apply IH in H0. lia.
Qed.
Lemma cnt_notin x l : ~ In x l -> cnt x l = 0.
Proof. intros H. pose proof (cnt_nonneg x l). destruct (Z.eq_dec (cnt x l) 0); [assumption|]. exfalso. apply H, cnt_in. lia. Qed.

Definition one (b : Z) (x : Z) : Z := if b =? x then 1 else 0.
Lemma one_same b : one b b = 1. Proof. unfold one. now rewrite Z.eqb_refl. Qed.
Lemma one_nonneg b x : 0 <= one b x. Proof. unfold one. destruct (b =? x); lia. Qed.
Lemma one_other b x : b <> x -> one b x = 0. Proof. unfold one. destruct (Z.eqb_spec b x); [congruence|lia]. Qed.
Lemma cnt_one x b : cnt x [b] = one b x. Proof. cbn [cnt]. unfold one. lia. Qed.
Lemma cnt_cons x b l : cnt x (b :: l) = one b x + cnt x l. Proof. reflexivity. Qed.

Lemma upd_same {A} (f : Z -> A) k v : upd f k v k = v. Proof. unfold upd. now rewrite Z.eqb_refl. Qed.
Lemma upd_other {A} (f : Z -> A) k v x : x <> k -> upd f k v x = f x. Proof. unfold upd. destruct (Z.eqb_spec x k); congruence. Qed.

Definition targets (h : heap) : list Z := map (fun p => fst (snd p)) (wraps h).
Definition block_ok (v : block) : Prop := match cap v with Some k => 0 <= sb v /\ sb v + zlen (dat v) <= k /\ 0 < k <= kMaxCapacity | None => True end.
(** [R x] references to the block [x] exist besides those of external blocks *)
Record Inv (h : heap) (R : Z -> Z) : Prop := {
  inv_pos : forall x, 0 <= R x;
  inv_new : forall x, nxt h <= x -> rc (blk h x) = 0 /\ ~ In x (targets h);
  inv_rc : forall x, rc (blk h x) = R x + cnt x (targets h);
  inv_ok : forall x, 0 < rc (blk h x) -> block_ok (blk h x);
  inv_dup : NoDup (map fst (wraps h));
  inv_wrap : forall w i o, In (w, (i, o)) (wraps h) -> 0 < rc (blk h w) /\ cap (blk h w) = None /\ 0 <= o /\ o + size h w <= size h i /\ data h w = ztake (size h w) (zdrop o (data h i));
  inv_less : forall w i o, In (w, (i, o)) (wraps h) -> i < w }.

Lemma Inv_ext h R R' : (forall x, R x = R' x) -> Inv h R -> Inv h R'.
Proof. intros E [P N C K D W LS]. constructor; intros; rewrite <- ?E; eauto. Qed.

Lemma inv_live h R x : Inv h R -> 0 < R x -> 0 < rc (blk h x) /\ x < nxt h /\ block_ok (blk h x).
Proof.
  intros I P. pose proof (inv_rc _ _ I x). pose proof (cnt_nonneg x (targets h)).
  assert (0 < rc (blk h x)) by lia. split; [assumption|]. split; [|now apply (inv_ok _ _ I)].
  destruct (Z.lt_ge_cases x (nxt h)) as [|G]; [assumption|]. destruct (inv_new _ _ I x G). lia.
Qed.

Lemma mutable_unique h R b : Inv h R -> 0 < R b -> is_mutable h b = true -> exists k, cap (blk h b) = Some k /\ rc (blk h b) = 1 /\ R b = 1 /\ ~ In b (targets h).
Proof.
  intros I P M. unfold is_mutable in M. destruct (cap (blk h b)) as [k|] eqn:C; [|discriminate]. apply Z.eqb_eq in M.
  exists k. pose proof (inv_rc _ _ I b). pose proof (cnt_nonneg b (targets h)).
  split; [reflexivity|]. split; [assumption|]. split; [lia|]. intros N. apply cnt_in in N. lia.
Qed.

(** all the data of the blocks with references [R] are the same *)
Definition keeps (R : Z -> Z) (h h' : heap) : Prop := forall x, 0 < R x -> data h' x = data h x.
Lemma keeps_refl R h : keeps R h h. Proof. intros x _. reflexivity. Qed.
Lemma keeps_trans R h1 h2 h3 : keeps R h1 h2 -> keeps R h2 h3 -> keeps R h1 h3.
Proof. intros A B x P. rewrite (B x P). now apply A. Qed.
Lemma keeps_le R R' h h' : (forall x, R' x <= R x) -> keeps R h h' -> keeps R' h h'.
Proof. intros L K x P. apply K. specialize (L x). lia. Qed.

(** Changing a block which has one owner *)
Lemma Inv_set h R b v : Inv h R -> 0 < R b -> is_mutable h b = true -> rc v = 1 -> cap v = cap (blk h b) -> block_ok v -> Inv (set_blk h b v) R.
Proof.
  intros I P M RC C K. destruct (mutable_unique _ _ _ I P M) as (k & CK & R1 & RB & NT).
  destruct (inv_live _ _ _ I P) as (L & LT & _).
  constructor; unfold set_blk; cbn [nxt blk wraps]; [| | | | | |exact (inv_less _ _ I)].
  - apply I.
  - intros x G. rewrite upd_other by lia. exact (inv_new _ _ I x G).
  - intros x. unfold targets. cbn [wraps]. destruct (Z.eq_dec x b) as [->|N]; [rewrite upd_same, RC, <- R1 | rewrite upd_other by assumption]; exact (inv_rc _ _ I _).
  - intros x. destruct (Z.eq_dec x b) as [->|N]; [rewrite upd_same; trivial | rewrite upd_other by assumption; apply (inv_ok _ _ I)].
  - apply I.
  - intros w i o Wi. destruct (inv_wrap _ _ I w i o Wi) as (W1 & W2 & W3 & W4 & W5).
    assert (NW : w <> b) by (intros ->; congruence).
    assert (NI : i <> b). { intros ->. apply NT. unfold targets. apply in_map_iff. exists (w, (b, o)). auto. }
    unfold size, data in *. cbn [blk]. rewrite !upd_other by assumption. auto.
Qed.
Lemma keeps_set h R b v : R b <= 0 -> keeps R h (set_blk h b v).
Proof. intros N x P. unfold data, set_blk. cbn [blk]. rewrite upd_other; [reflexivity|]. intros ->. lia. Qed.
Lemma data_set_same h b v : data (set_blk h b v) b = dat v.
Proof. unfold data, set_blk. cbn [blk]. now rewrite upd_same. Qed.
Lemma data_set_other h b v x : x <> b -> data (set_blk h b v) x = data h x.
Proof. intros N. unfold data, set_blk. cbn [blk]. now rewrite upd_other. Qed.

(** A new block *)
Lemma Inv_alloc h R v wr : Inv h R -> rc v = 1 -> block_ok v -> (wr = wraps h) ->
  Inv {| nxt := nxt h + 1; blk := upd (blk h) (nxt h) v; wraps := wr |} (fun x => R x + one (nxt h) x).
Proof.
  intros I RC K ->. destruct (inv_new _ _ I (nxt h) ltac:(lia)) as [N0 NT].
  constructor; cbn [nxt blk wraps]; [| | | | | |exact (inv_less _ _ I)].
  - intros x. pose proof (inv_pos _ _ I x). pose proof (one_nonneg (nxt h) x). lia.
  - intros x G. rewrite upd_other by lia. apply (inv_new _ _ I). lia.
  - intros x. pose proof (inv_rc _ _ I x). unfold targets in *. cbn [wraps]. destruct (Z.eq_dec x (nxt h)) as [->|N].
    + rewrite upd_same, one_same, RC. pose proof (inv_pos _ _ I (nxt h)). pose proof (cnt_nonneg (nxt h) (map (fun p : Z * (Z * Z) => fst (snd p)) (wraps h))). lia.
    + rewrite upd_other by assumption. rewrite one_other by congruence. lia.
  - intros x. destruct (Z.eq_dec x (nxt h)) as [->|N]; [rewrite upd_same; trivial | rewrite upd_other by assumption; apply (inv_ok _ _ I)].
  - apply I.
  - intros w i o Wi. destruct (inv_wrap _ _ I w i o Wi) as (W1 & W2 & W3 & W4 & W5).
    assert (NW : w <> nxt h) by (intros ->; lia).
    assert (NI : i <> nxt h). { intros ->. apply NT. unfold targets. apply in_map_iff. exists (w, (nxt h, o)). auto. }
    unfold size, data in *. cbn [blk]. rewrite !upd_other by assumption. auto.
Qed.
Lemma fresh_R h R : Inv h R -> forall x, 0 < R x -> x <> nxt h.
Proof. intros I x P ->. destruct (inv_live _ _ _ I P) as (_ & L & _). lia. Qed.

Lemma Inv_Ref_rc h R b : Inv h R -> 0 < rc (blk h b) -> Inv (Ref h b) (fun x => R x + one b x) /\ (forall x, data (Ref h b) x = data h x).
Proof.
  intros I L. pose proof (inv_ok _ _ I b L) as K. assert (LT : b < nxt h). { destruct (Z.lt_ge_cases b (nxt h)) as [|Q]; [assumption|]. destruct (inv_new _ _ I b Q). lia. }
  assert (DA : forall x, data (Ref h b) x = data h x).
  { intros x. unfold Ref, data, set_blk. cbn [blk]. destruct (Z.eq_dec x b) as [->|N]; [rewrite upd_same|rewrite upd_other by assumption]; reflexivity. }
  split; [|exact DA].
  constructor; cbn [Ref set_blk nxt blk wraps]; [| | | | | |exact (inv_less _ _ I)].
  - intros x. pose proof (inv_pos _ _ I x). pose proof (one_nonneg b x). lia.
  - intros x G. rewrite upd_other by lia. exact (inv_new _ _ I x G).
  - intros x. pose proof (inv_rc _ _ I x). unfold targets in *. cbn [wraps set_blk Ref]. destruct (Z.eq_dec x b) as [->|N].
    + rewrite upd_same, one_same. cbn [with_rc rc]. lia.
    + rewrite upd_other by assumption. rewrite one_other by congruence. lia.
  - intros x. destruct (Z.eq_dec x b) as [->|N]; [rewrite upd_same; intros _; exact K | rewrite upd_other by assumption; apply (inv_ok _ _ I)].
  - apply I.
  - intros w i o Wi. destruct (inv_wrap _ _ I w i o Wi) as (W1 & W2 & W3 & W4 & W5).
    fold (Ref h b). unfold size in *. rewrite !DA. split; [|split; [|auto]].
    + destruct (Z.eq_dec w b) as [->|N]; [rewrite upd_same; cbn [with_rc rc]; lia|rewrite upd_other by assumption; assumption].
    + destruct (Z.eq_dec w b) as [->|N]; [rewrite upd_same; assumption|rewrite upd_other by assumption; assumption].
Qed.

Lemma Inv_Ref h R b : Inv h R -> 0 < R b -> Inv (Ref h b) (fun x => R x + one b x) /\ (forall x, data (Ref h b) x = data h x).
Proof. intros I P. apply Inv_Ref_rc; [exact I|]. now destruct (inv_live _ _ _ I P). Qed.
(** A new external block which takes over a reference *)
Lemma Inv_wrapper h R b off len : Inv h (fun x => R x + one b x) -> (forall x, 0 <= R x) -> 0 <= off -> 0 <= len -> off + len <= size h b ->
  exists h', NewWrapper h b off len = (nxt h, h') /\ Inv h' (fun x => R x + one (nxt h) x) /\ (forall x, x <> nxt h -> data h' x = data h x) /\ R (nxt h) = 0 /\ data h' (nxt h) = ztake len (zdrop off (data h b)).
Proof.
  intros I PR O0 L0 OL. destruct (inv_new _ _ I (nxt h) ltac:(lia)) as [N0 NT].
  assert (PB : 0 < R b + one b b) by (rewrite one_same; specialize (PR b); lia). destruct (inv_live _ _ _ I PB) as (LB & LT & _).
  assert (R0 : R (nxt h) = 0). { pose proof (inv_rc _ _ I (nxt h)) as Q. cbv beta in Q. pose proof (PR (nxt h)). pose proof (one_nonneg b (nxt h)). pose proof (cnt_nonneg (nxt h) (targets h)). lia. }
  unfold NewWrapper. eexists. split; [reflexivity|]. split; [|split; [intros x N; unfold data; cbn [blk]; now rewrite upd_other|split; [exact R0|unfold data; cbn [blk]; now rewrite upd_same]]].
  constructor; cbn [nxt blk wraps]; [| | | | | |intros w i o [EQ|HI]; [injection EQ as <- <- <-; exact LT|exact (inv_less _ _ I _ _ _ HI)]].
  - intros x. pose proof (PR x). pose proof (one_nonneg (nxt h) x). lia.
  - intros x Q. rewrite upd_other by lia. destruct (inv_new _ _ I x ltac:(lia)) as [A B]. split; [exact A|]. unfold targets. cbn [wraps map fst snd]. intros [->|HI]; [lia|now apply B].
  - intros x. pose proof (inv_rc _ _ I x) as Q. cbv beta in Q. unfold targets. cbn [wraps map fst snd]. rewrite cnt_cons. fold (targets h). destruct (Z.eq_dec x (nxt h)) as [->|N].
    + rewrite upd_same, one_same. cbn [rc]. rewrite (one_other b) by lia. rewrite R0. rewrite (cnt_notin _ _ NT). lia.
    + rewrite upd_other by assumption. rewrite (one_other (nxt h)) by congruence. lia.
  - intros x. destruct (Z.eq_dec x (nxt h)) as [->|N]; [rewrite upd_same; intros _; exact Logic.I | rewrite upd_other by assumption; apply (inv_ok _ _ I)].
  - cbn [map fst]. constructor; [|apply I]. intros HI. apply in_map_iff in HI as ([w [i o]] & EQ & HI). cbn [fst] in EQ. subst w. destruct (inv_wrap _ _ I _ _ _ HI). lia.
  - intros w i o [EQ|HI].
    + injection EQ as <- <- <-. rewrite upd_same. cbn [rc cap]. split; [lia|]. split; [reflexivity|]. split; [exact O0|].
      match goal with |- off + size ?hh (nxt h) <= _ /\ _ => set (h' := hh) end.
      assert (DN : data h' (nxt h) = ztake len (zdrop off (data h b))) by (unfold data, h'; cbn [blk]; now rewrite upd_same).
      assert (DB : data h' b = data h b) by (unfold data, h'; cbn [blk]; rewrite upd_other by lia; reflexivity).
      unfold size in *. assert (LE : zlen (ztake len (zdrop off (data h b))) = len) by (rewrite zlen_ztake, zlen_zdrop by lia; lia). rewrite DN, DB, LE. split; [lia|reflexivity].
    + destruct (inv_wrap _ _ I w i o HI) as (W1 & W2 & W3 & W4 & W5). assert (NW : w <> nxt h) by (intros ->; lia).
      assert (NI : i <> nxt h). { intros ->. apply NT. unfold targets. apply in_map_iff. exists (w, (nxt h, o)). auto. }
      unfold size, data in *. cbn [blk]. rewrite !upd_other by assumption. auto.
Qed.

Lemma find_wrap_in h b i o : find_wrap h b = Some (i, o) -> In (b, (i, o)) (wraps h).
Proof.
  unfold find_wrap. destruct (find _ (wraps h)) as [[w t]|] eqn:F; [|discriminate]. intros [= ->].
  apply find_some in F as [H1 H2]. cbn [fst] in H2. apply Z.eqb_eq in H2. now subst w.
Qed.
Lemma find_wrap_none h b : find_wrap h b = None -> ~ In b (map fst (wraps h)).
Proof.
  unfold find_wrap. destruct (find _ (wraps h)) as [[w t]|] eqn:F; [discriminate|]. intros _ HI. apply in_map_iff in HI as ([w t] & E & HI).
  cbn [fst] in E. subst w. apply (find_none _ _ F) in HI. cbn [fst] in HI. now rewrite Z.eqb_refl in HI.
Qed.
Lemma filter_away (l : list (Z * (Z * Z))) b : ~ In b (map fst l) -> filter (fun p => negb (fst p =? b)) l = l.
Proof.
  induction l as [|[w t] l IH]; cbn [map filter fst In]; [reflexivity|]. intros N. destruct (Z.eqb_spec w b); [exfalso; apply N; now left|].
  cbn [negb]. f_equal. apply IH. intros HI. apply N. now right.
Qed.
Lemma cnt_filter (l : list (Z * (Z * Z))) b i o x : NoDup (map fst l) -> In (b, (i, o)) l ->
  cnt x (map (fun p => fst (snd p)) l) = one i x + cnt x (map (fun p => fst (snd p)) (filter (fun p => negb (fst p =? b)) l)).
Proof.
  induction l as [|[w [t q]] l IH]; cbn [map filter fst snd In cnt]; [easy|]. intros ND HI. inversion ND as [|? ? NI ND' EQ]; subst.
  destruct (Z.eqb_spec w b) as [->|NE].
  - cbn [negb]. destruct HI as [HI|HI]; [|exfalso; apply NI; apply in_map_iff; exists (b, (i, o)); auto].
    injection HI as -> ->. rewrite filter_away by assumption. reflexivity.
  - cbn [negb map cnt fst snd]. destruct HI as [HI|HI]; [congruence|]. rewrite (IH ND' HI). lia.
Qed.
Lemma filter_len_le {A} (f : A -> bool) l : (length (filter f l) <= length l)%nat.
Proof. induction l as [|p l IH]; cbn [filter length]; [lia|]. destruct (f p); cbn [length]; lia. Qed.
Lemma filter_length_lt (l : list (Z * (Z * Z))) b t : In (b, t) l -> (length (filter (fun p => negb (fst p =? b)%Z) l) < length l)%nat.
Proof.
  induction l as [|[w q] l IH]; cbn [filter fst In length]; [easy|]. intros [HI|HI].
  - injection HI as -> ->. rewrite Z.eqb_refl. cbn [negb]. pose proof (filter_len_le (fun p : Z * (Z * Z) => negb (fst p =? b)) l). lia.
  - apply IH in HI. destruct (negb (w =? b)); cbn [length]; lia.
Qed.
Lemma NoDup_map_filter (l : list (Z * (Z * Z))) f : NoDup (map fst l) -> NoDup (map fst (filter f l)).
Proof.
  induction l as [|p l IH]; cbn [map filter]; [trivial|]. intros ND. inversion ND as [|? ? NI ND' EQ]; subst.
  destruct (f p); [|auto]. cbn [map]. constructor; [|auto]. intros HI. apply NI. apply in_map_iff in HI as (q & E & HI). apply filter_In in HI. apply in_map_iff. exists q. tauto.
Qed.

(** Dropping a reference *)
Lemma Inv_unref_fuel fuel : forall h R b, (length (wraps h) < fuel)%nat -> Inv h (fun x => R x + one b x) -> (forall x, 0 <= R x) ->
  Inv (unref_fuel fuel h b) R /\ (forall x, 0 < R x -> blk (unref_fuel fuel h b) x = blk h x \/ exists r, blk (unref_fuel fuel h b) x = with_rc (blk h x) r) /\ (forall x, cnt x (targets (unref_fuel fuel h b)) <= cnt x (targets h)).
Proof.
  induction fuel as [|fuel IH]; intros h R b FU I PR; [lia|]. cbn [unref_fuel].
  assert (PB : 0 < R b + one b b) by (rewrite one_same; specialize (PR b); lia).
  destruct (inv_live _ _ _ I PB) as (L & LT & K). pose proof (inv_rc _ _ I b) as RB. cbv beta in RB. rewrite one_same in RB.
  pose proof (cnt_nonneg b (targets h)) as CB. pose proof (PR b) as PRb.
  destruct (Z.eqb_spec (rc (blk h b)) 1) as [R1|R1].
  - assert (R0 : R b = 0) by lia. assert (T0 : cnt b (targets h) = 0) by lia.
    assert (NT : ~ In b (targets h)) by (rewrite cnt_in; lia).
    assert (NI : forall w i o, In (w, (i, o)) (wraps h) -> i <> b).
    { intros w i o HI ->. apply NT. unfold targets. apply in_map_iff. exists (w, (b, o)). auto. }
    destruct (find_wrap h b) as [[i o]|] eqn:F.
    + pose proof (find_wrap_in _ _ _ _ F) as HB.
      set (h1 := {| nxt := nxt h; blk := upd (blk h) b {| rc := 0; cap := None; sb := 0; dat := [] |}; wraps := filter (fun p => negb (fst p =? b)) (wraps h) |}).
      assert (CN : forall x, cnt x (targets h) = one i x + cnt x (targets h1)).
      { intros x. unfold targets, h1. cbn [wraps]. apply (cnt_filter _ _ _ o); [apply I|assumption]. }
      destruct (IH h1 R i) as (I2 & KE & NX).
      * pose proof (filter_length_lt _ _ _ HB). unfold h1. cbn [wraps]. lia.
      * assert (NB : i <> b) by (eapply NI; exact HB).
        constructor; [| | | | | |intros w j q HI; unfold h1 in HI; cbn [wraps] in HI; apply filter_In in HI as [HI _]; exact (inv_less _ _ I _ _ _ HI)].
        -- intros x. pose proof (PR x). pose proof (one_nonneg i x). lia.
        -- intros x G. unfold h1 at 1. cbn [blk]. unfold h1 in G. cbn [nxt] in G. rewrite upd_other by lia. destruct (inv_new _ _ I x G) as [A B]. split; [assumption|].
           rewrite cnt_in. rewrite cnt_in in B. rewrite (CN x) in B. pose proof (one_nonneg i x). lia.
        -- intros x. unfold h1 at 1. cbn [blk]. destruct (Z.eq_dec x b) as [->|N].
           ++ rewrite upd_same. cbn [rc]. pose proof (CN b). rewrite one_other in H |- * by assumption. lia.
           ++ rewrite upd_other by assumption. pose proof (inv_rc _ _ I x) as Q. cbv beta in Q. rewrite (CN x) in Q. rewrite (one_other b x) in Q by congruence. lia.
        -- intros x. unfold h1. cbn [blk]. destruct (Z.eq_dec x b) as [->|N]; [rewrite upd_same; cbn [rc]; lia|rewrite upd_other by assumption; apply (inv_ok _ _ I)].
        -- unfold h1. cbn [wraps]. apply NoDup_map_filter. apply I.
        -- intros w j q HI. unfold h1 in HI. cbn [wraps] in HI. apply filter_In in HI as [HI NW]. cbn [fst] in NW. apply Bool.negb_true_iff, Z.eqb_neq in NW.
           pose proof (NI _ _ _ HI). destruct (inv_wrap _ _ I w j q HI) as (W1 & W2 & W3 & W4 & W5). unfold size, data, h1 in *. cbn [blk] in *. rewrite !upd_other by assumption. auto.
      * assumption.
      * split; [exact I2|]. split; [|intros x; specialize (NX x); rewrite (CN x); pose proof (one_nonneg i x); lia]. intros x P. assert (N : x <> b) by (intros ->; lia).
        assert (E : blk h1 x = blk h x) by (unfold h1; cbn [blk]; now rewrite upd_other). destruct (KE x P) as [Q|[r Q]]; rewrite Q, E; [now left|right; eauto].
    + pose proof (find_wrap_none _ _ F) as NF. split; [|split; [|intros x; unfold targets; cbn [set_blk wraps]; lia]].
      * constructor; unfold set_blk; cbn [nxt blk wraps]; [| | | | | |exact (inv_less _ _ I)].
        -- exact PR.
        -- intros x G. rewrite upd_other by lia. exact (inv_new _ _ I x G).
        -- intros x. unfold targets in *. cbn [wraps]. destruct (Z.eq_dec x b) as [->|N].
           ++ rewrite upd_same. cbn [rc]. lia.
           ++ rewrite upd_other by assumption. pose proof (inv_rc _ _ I x) as Q. cbv beta in Q. unfold targets in Q. rewrite (one_other b x) in Q by congruence. lia.
        -- intros x. destruct (Z.eq_dec x b) as [->|N]; [rewrite upd_same; cbn [rc]; lia|rewrite upd_other by assumption; apply (inv_ok _ _ I)].
        -- apply I.
        -- intros w j q HI. assert (NW : w <> b). { intros ->. apply NF. apply in_map_iff. exists (b, (j, q)). auto. }
           pose proof (NI _ _ _ HI). destruct (inv_wrap _ _ I w j q HI) as (W1 & W2 & W3 & W4 & W5). unfold size, data in *. cbn [blk]. rewrite !upd_other by assumption. auto.
      * intros x P. left. unfold set_blk. cbn [blk]. apply upd_other. intros ->. lia.
  - assert (DA : forall x, data (set_blk h b (with_rc (blk h b) (rc (blk h b) - 1))) x = data h x).
    { intros x. unfold data, set_blk. cbn [blk]. destruct (Z.eq_dec x b) as [->|N]; [rewrite upd_same|rewrite upd_other by assumption]; reflexivity. }
    split; [|split; [|intros x; unfold targets; cbn [set_blk wraps]; lia]].
    + constructor; cbn [set_blk nxt blk wraps]; [| | | | | |exact (inv_less _ _ I)].
      * exact PR.
      * intros x G. rewrite upd_other by lia. exact (inv_new _ _ I x G).
      * intros x. unfold targets in *. cbn [wraps set_blk]. pose proof (inv_rc _ _ I x) as Q. cbv beta in Q. destruct (Z.eq_dec x b) as [->|N].
        -- rewrite upd_same. cbn [with_rc rc]. lia.
        -- rewrite upd_other by assumption. unfold targets in Q. rewrite (one_other b x) in Q by congruence. lia.
      * intros x. destruct (Z.eq_dec x b) as [->|N]; [rewrite upd_same; intros _; exact K|rewrite upd_other by assumption; apply (inv_ok _ _ I)].
      * apply I.
      * intros w j q HI. destruct (inv_wrap _ _ I w j q HI) as (W1 & W2 & W3 & W4 & W5).
        unfold size in *. fold (set_blk h b (with_rc (blk h b) (rc (blk h b) - 1))). rewrite !DA. split; [|split; [|auto]].
        -- destruct (Z.eq_dec w b) as [->|N]; [rewrite upd_same; cbn [with_rc rc]; lia|rewrite upd_other by assumption; assumption].
        -- destruct (Z.eq_dec w b) as [->|N]; [rewrite upd_same; assumption|rewrite upd_other by assumption; assumption].
    + intros x P. unfold set_blk. cbn [blk]. destruct (Z.eq_dec x b) as [->|N]; [right; rewrite upd_same; eauto|left; now apply upd_other].
Qed.
Lemma Inv_Unref h R b : Inv h (fun x => R x + one b x) -> (forall x, 0 <= R x) -> Inv (Unref h b) R /\ keeps R h (Unref h b).
Proof.
  intros I PR. unfold Unref. destruct (Inv_unref_fuel (S (length (wraps h))) h R b ltac:(lia) I PR) as (I2 & K & _). split; [exact I2|].
  intros x P. unfold data. destruct (K x P) as [Q|[r Q]]; rewrite Q; reflexivity.
Qed.
(** a block which can be changed stays so *)
Lemma Unref_blk h R b n : Inv h (fun x => R x + one b x) -> (forall x, 0 <= R x) -> 0 < R n -> rc (blk h n) = 1 -> blk (Unref h b) n = blk h n.
Proof.
  intros I PR P R1. unfold Unref. destruct (Inv_unref_fuel (S (length (wraps h))) h R b ltac:(lia) I PR) as (I2 & K & T).
  pose proof (inv_rc _ _ I n) as A. cbv beta in A. pose proof (inv_rc _ _ I2 n) as B. pose proof (cnt_nonneg n (targets h)). pose proof (one_nonneg b n). specialize (T n).
  pose proof (cnt_nonneg n (targets (unref_fuel (S (length (wraps h))) h b))).
  destruct (K n P) as [Q|[r Q]]; [exact Q|]. rewrite Q in B |- *. cbn [with_rc rc] in B. replace r with (rc (blk h n)) by lia. now destruct (blk h n).
Qed.
Lemma Inv_UnrefBlocks bs : forall h R, Inv h (fun x => R x + cnt x bs) -> (forall x, 0 <= R x) -> Inv (UnrefBlocks h bs) R /\ keeps R h (UnrefBlocks h bs).
Proof.
  induction bs as [|b bs IH]; intros h R I PR; unfold UnrefBlocks; cbn [fold_left].
  - split; [|apply keeps_refl]. eapply Inv_ext; [|exact I]. intros x. cbn [cnt]. lia.
  - destruct (Inv_Unref h (fun x => R x + cnt x bs) b) as (I1 & K1).
    + eapply Inv_ext; [|exact I]. intros x. cbv beta. rewrite cnt_cons. lia.
    + intros x. pose proof (PR x). pose proof (cnt_nonneg x bs). lia.
    + destruct (IH (Unref h b) R I1 PR) as (I2 & K2). split; [exact I2|]. eapply keeps_trans; [|exact K2]. eapply keeps_le; [|exact K1]. intros x. cbv beta. pose proof (cnt_nonneg x bs). lia.
Qed.
Lemma Inv_Refs bs : forall h R, Inv h R -> (forall x, In x bs -> 0 < R x) -> Inv (fold_left Ref bs h) (fun x => R x + cnt x bs) /\ (forall x, data (fold_left Ref bs h) x = data h x).
Proof.
  induction bs as [|b bs IH]; intros h R I P; cbn [fold_left].
  - split; [|reflexivity]. eapply Inv_ext; [|exact I]. intros x. cbn [cnt]. lia.
  - destruct (Inv_Ref h R b I) as (I1 & D1); [apply P; now left|].
    destruct (IH (Ref h b) _ I1) as (I2 & D2).
    + intros x HI. pose proof (one_nonneg b x). pose proof (P x (or_intror HI)). lia.
    + split; [|intros x; rewrite D2; apply D1]. eapply Inv_ext; [|exact I2]. intros x. cbv beta. rewrite cnt_cons. lia.
Qed.
