(** Appending to a Chain. *)
From Verif Require Import Base.Bytes Model.BufferSizer Model.Chain Proof.ChainHeap Proof.ChainSteps.

Definition plus (F : Z -> Z) (l : list Z) (x : Z) : Z := F x + cnt x l.
Definition content (h : heap) (c : chain) : list Z := match cblocks c with [] => short_data c | bs => flat h bs end.
Record Ok (h : heap) (c : chain) : Prop := {
  ok_size : csize c = zlen (content h c);
  ok_short : cblocks c = [] -> csize c <= kMaxShortDataSize;
  ok_offs : Cok h c }.
Record opt_ok (opt : options) : Prop := { opt_min : 0 <= min_block_size opt; opt_max : 0 < max_block_size opt <= 2 ^ 31; opt_hint : forall s, size_hint opt = Some s -> 0 <= s }.
Definition St (F : Z -> Z) (h : heap) (c : chain) : Prop := Inv h (plus F (cblocks c)) /\ Cok h c.
Definition Post (F : Z -> Z) (h h' : heap) (c' : chain) (s : list Z) : Prop := Inv h' (plus F (cblocks c')) /\ Ok h' c' /\ content h' c' = s /\ keeps F h h'.

Lemma kMaxCapacity_val : kMaxCapacity = 9223372036854775807. Proof. reflexivity. Qed.
Lemma SIZE_MAX_val : SIZE_MAX = 18446744073709551615. Proof. reflexivity. Qed.
Ltac consts := pose proof kMaxCapacity_val; pose proof SIZE_MAX_val; change kMaxShortDataSize with 16 in *; change kDefaultMinBlockSize with 512 in *; change kAllocationCost with 512 in *.

Lemma in_plus F l x : (forall y, 0 <= F y) -> In x l -> 0 < plus F l x.
Proof. intros P HI. apply cnt_in in HI. unfold plus. specialize (P x). lia. Qed.
Lemma F_plus F l x : 0 < F x -> 0 < plus F l x.
Proof. intros P. unfold plus. pose proof (cnt_nonneg x l). lia. Qed.
Lemma plus_le F l x : F x <= plus F l x.
Proof. unfold plus. pose proof (cnt_nonneg x l). lia. Qed.
Lemma fresh_keeps R h h' n : R n = 0 -> (forall x, x <> n -> data h' x = data h x) -> keeps R h h'.
Proof. intros R0 K x P. apply K. intros ->. lia. Qed.
Lemma keeps_flat R h h' l : keeps R h h' -> (forall x, In x l -> 0 < R x) -> flat h' l = flat h l.
Proof. intros K P. apply flat_keep. intros x HI. apply K. auto. Qed.
Lemma back_in c : cblocks c <> [] -> In (back c) (cblocks c).
Proof. intros N. unfold back. rewrite (split_last (cblocks c) 0 N) at 2. apply in_or_app. right. now left. Qed.
Lemma front_in c : cblocks c <> [] -> In (front c) (cblocks c).
Proof. unfold front. destruct (cblocks c); [easy|]. intros _. now left. Qed.
Lemma split_back c : cblocks c <> [] -> cblocks c = removelast (cblocks c) ++ [back c].
Proof. apply split_last. Qed.
Lemma split_front c : cblocks c <> [] -> cblocks c = front c :: tl (cblocks c).
Proof. unfold front. destruct (cblocks c); [easy|]. reflexivity. Qed.
Lemma flat_split_back h c : cblocks c <> [] -> flat h (cblocks c) = flat h (removelast (cblocks c)) ++ data h (back c).
Proof. intros N. rewrite (split_back c N) at 1. now rewrite flat_app, flat_one. Qed.
Lemma flat_split_front h c : cblocks c <> [] -> flat h (cblocks c) = data h (front c) ++ flat h (tl (cblocks c)).
Proof. intros N. rewrite (split_front c N) at 1. now rewrite flat_cons. Qed.
Lemma content_flat h c : cblocks c <> [] -> content h c = flat h (cblocks c).
Proof. unfold content. destruct (cblocks c); [easy|]. reflexivity. Qed.
Lemma content_short h c : cblocks c = [] -> content h c = short_data c.
Proof. unfold content. now intros ->. Qed.
Lemma data_nil_size h b : size h b = 0 -> data h b = [].
Proof. intros H. apply is_empty_spec. unfold is_empty. now apply Z.eqb_eq. Qed.

(** a block of the chain which can be changed belongs to nobody else, and occurs once *)
Lemma own_back F h c : (forall x, 0 <= F x) -> Inv h (plus F (cblocks c)) -> cblocks c <> [] -> is_mutable h (back c) = true -> F (back c) = 0 /\ ~ In (back c) (removelast (cblocks c)).
Proof.
  intros P I N M. destruct (mutable_unique _ _ _ I (in_plus _ _ _ P (back_in c N)) M) as (k & _ & _ & R1 & _). unfold plus in R1. rewrite (split_back c N) in R1 at 1.
  rewrite cnt_app, cnt_one, one_same in R1. pose proof (P (back c)). pose proof (cnt_nonneg (back c) (removelast (cblocks c))). split; [lia|]. rewrite cnt_in. lia.
Qed.
Lemma own_front F h c : (forall x, 0 <= F x) -> Inv h (plus F (cblocks c)) -> cblocks c <> [] -> is_mutable h (front c) = true -> F (front c) = 0 /\ ~ In (front c) (tl (cblocks c)).
Proof.
  intros P I N M. destruct (mutable_unique _ _ _ I (in_plus _ _ _ P (front_in c N)) M) as (k & _ & _ & R1 & _). unfold plus in R1. rewrite (split_front c N) in R1 at 1.
  rewrite cnt_cons, one_same in R1. pose proof (P (front c)). pose proof (cnt_nonneg (front c) (tl (cblocks c))). split; [lia|]. rewrite cnt_in. lia.
Qed.
Lemma size_le_cap F h b : Inv h F -> 0 < F b -> is_mutable h b = true -> 0 <= size h b <= kMaxCapacity.
Proof.
  intros I P M. destruct (mutable_unique _ _ _ I P M) as (k & C & _). destruct (inv_live _ _ _ I P) as (_ & _ & K). unfold block_ok in K. rewrite C in K. unfold size, data. pose proof (zlen_nonneg (dat (blk h b))). lia.
Qed.

Section A.
Context (E : env) (EO : env_ok E).

Lemma off_bound : offset E <= 513.
Proof. pose proof (env_waste E EO 0 1 ltac:(consts; lia)). pose proof (env_cap E EO 0 1 ltac:(consts; lia)). consts. lia. Qed.
Lemma wasteful_size R h b x : Inv h R -> 0 < R b -> 0 <= x -> wasteful E h b x = true -> 2 * size h b <= kMaxCapacity.
Proof.
  intros I P X W. destruct (inv_live _ _ _ I P) as (_ & _ & K). unfold wasteful, block_ok in *. destruct (cap (blk h b)) as [k|]; [|discriminate]. unfold Wasteful in W.
  destruct (offset E + k <? size h b + x); [discriminate|]. destruct (_ <=? kDefaultMinBlockSize); [discriminate|]. apply Z.ltb_lt in W. pose proof off_bound. consts. lia.
Qed.
Lemma tiny_size h b : tiny h b = true -> size h b < 512. Proof. unfold tiny. intros T. now apply Z.ltb_lt in T. Qed.

Lemma new_capacity c repl mn rec opt : opt_ok opt -> 0 <= repl <= csize c -> 0 <= mn -> repl + mn <= kMaxCapacity -> 0 < repl + mn ->
  exists k, NewBlockCapacity c repl mn rec opt = Some k /\ repl + mn <= k /\ 0 < k <= kMaxCapacity.
Proof.
  intros [O1 O2 O3] R M S0 S1. unfold NewBlockCapacity, check. destruct (Z.leb_spec repl (csize c)); [|lia]. destruct (Z.leb_spec mn (kMaxCapacity - repl)); [|lia].
  eexists. split; [reflexivity|]. unfold UnsignedClamp, SaturatingSub. consts. lia.
Qed.

Lemma new_two R h k x y : Inv h R -> 0 < R x -> 0 < R y -> 0 < k <= kMaxCapacity -> size h x + size h y <= k ->
  exists n h1 h2 h3, NewInternal E h k = Some (n, h1) /\ Block_Append h1 n (data h1 x) = Some h2 /\ Block_Append h2 n (data h2 y) = Some h3 /\
    Inv h3 (fun z => R z + one n z) /\ R n = 0 /\ (forall z, z <> n -> data h3 z = data h z) /\ (forall z, z <> n -> data h2 z = data h z) /\ data h3 n = data h x ++ data h y.
Proof.
  intros I Px Py K L. destruct (new_step E EO h R k I K) as (n & h1 & k' & E1 & I1 & D1 & RN & _ & DN & KB & AB1 & _ & _).
  assert (Nx : x <> n) by (intros ->; lia). assert (Ny : y <> n) by (intros ->; lia). pose proof (size_nonneg h y).
  destruct (AB_append h1 (fun z => R z + one n z) n k' (data h1 x) I1) as (h2 & E2 & I2 & AB2 & D2 & D2'); [rewrite one_same; lia|assumption|unfold size; rewrite DN, D1 by assumption; fold (size h x); change (zlen (@nil Z)) with 0; lia|].
  rewrite DN, D1 in D2 by assumption. cbn [app] in D2.
  destruct (AB_append h2 (fun z => R z + one n z) n k' (data h2 y) I2) as (h3 & E3 & I3 & AB3 & D3 & D3'); [rewrite one_same; lia|assumption| |].
  { unfold size. rewrite D2, D2', D1 by assumption. fold (size h x). fold (size h y). lia. }
  exists n, h1, h2, h3. split; [assumption|]. split; [assumption|]. split; [assumption|]. split; [assumption|]. split; [assumption|].
  assert (Q : forall z, z <> n -> data h2 z = data h z) by (intros z N; rewrite D2', D1 by assumption; reflexivity).
  split; [intros z N; rewrite D3' by assumption; auto|]. split; [assumption|]. rewrite D3, D2, Q by assumption. reflexivity.
Qed.
Lemma new_one R h k x : Inv h R -> 0 < R x -> 0 < k <= kMaxCapacity -> size h x <= k ->
  exists n h1 h2 k', NewInternal E h k = Some (n, h1) /\ Block_Append h1 n (data h1 x) = Some h2 /\ k <= k' /\ AB h2 n k' /\
    Inv h2 (fun z => R z + one n z) /\ R n = 0 /\ (forall z, z <> n -> data h2 z = data h z) /\ data h2 n = data h x.
Proof.
  intros I Px K L. destruct (new_step E EO h R k I K) as (n & h1 & k' & E1 & I1 & D1 & RN & _ & DN & KB & AB1 & _ & _).
  assert (Nx : x <> n) by (intros ->; lia).
  destruct (AB_append h1 (fun z => R z + one n z) n k' (data h1 x) I1) as (h2 & E2 & I2 & AB2 & D2 & D2'); [rewrite one_same; lia|assumption|unfold size; rewrite DN, D1 by assumption; fold (size h x); change (zlen (@nil Z)) with 0; lia|].
  rewrite DN, D1 in D2 by assumption. cbn [app] in D2. exists n, h1, h2, k'.
  split; [assumption|]. split; [assumption|]. split; [lia|]. split; [assumption|]. split; [assumption|]. split; [assumption|]. split; [|assumption].
  intros z N. rewrite D2', D1 by assumption. reflexivity.
Qed.
Lemma new_short R h k s : Inv h R -> zlen s <= 16 -> 16 <= k <= kMaxCapacity ->
  exists n h1 h2 k', NewInternal E h k = Some (n, h1) /\ Block_AppendExplicit h1 n s kMaxShortDataSize = Some h2 /\ k <= k' /\ AB h2 n k' /\
    Inv h2 (fun z => R z + one n z) /\ R n = 0 /\ (forall z, z <> n -> data h2 z = data h z) /\ data h2 n = s.
Proof.
  intros I L K. destruct (new_step E EO h R k I) as (n & h1 & k' & E1 & I1 & D1 & RN & _ & DN & KB & AB1 & _ & _); [lia|].
  destruct (explicit_step h1 (fun z => R z + one n z) n k' s kMaxShortDataSize I1) as (h2 & E2 & I2 & AB2 & D2 & D2'); [rewrite one_same; lia|assumption|consts; lia|unfold size; rewrite DN; change (zlen (@nil Z)) with 0; consts; lia|].
  rewrite DN in D2. cbn [app] in D2. exists n, h1, h2, k'.
  split; [assumption|]. split; [assumption|]. split; [lia|]. split; [assumption|]. split; [assumption|]. split; [assumption|]. split; [|assumption].
  intros z N. rewrite D2', D1 by assumption. reflexivity.
Qed.

Lemma AB_can h b k n : AB h b k -> size h b + n <= k -> can_append h b n = true.
Proof. intros (C & R1 & S0) L. pose proof (size_nonneg h b). unfold can_append. rewrite (mutable_of _ _ _ C R1). unfold space_after, capacity. rewrite C, S0. cbn [andb]. apply Z.leb_le. destruct (is_empty h b); lia. Qed.
Context (F : Z -> Z) (PF : forall x, 0 <= F x).
(** Block pointers *)
Lemma push_back_st h c b : Inv h (fun x => plus F (cblocks c) x + one b x) -> Cok h c -> St F h (PushBack h c b).
Proof.
  intros I K. split; [|now apply Cok_PushBack]. eapply Inv_ext; [|exact I]. intros x. unfold plus. cbn [PushBack with_blocks cblocks]. rewrite cnt_app, cnt_one. lia.
Qed.
Lemma set_back_st h c b : Inv h (fun x => plus F (cblocks c) x + one b x) -> Cok h c -> cblocks c <> [] ->
  St F (Unref h (back c)) (SetBack_keep c b) /\ keeps (plus F (removelast (cblocks c) ++ [b])) h (Unref h (back c)) /\ (rc (blk h b) = 1 -> blk (Unref h (back c)) b = blk h b).
Proof.
  intros I K N. assert (I0 : Inv h (fun x => plus F (removelast (cblocks c) ++ [b]) x + one (back c) x)).
  { eapply Inv_ext; [|exact I]. intros x. unfold plus. rewrite (split_back c N) at 1. rewrite !cnt_app, !cnt_one. lia. }
  destruct (Inv_Unref h (plus F (removelast (cblocks c) ++ [b])) (back c) I0) as (I1 & K1).
  - intros x. pose proof (PF x). pose proof (plus_le F (removelast (cblocks c) ++ [b]) x). lia.
  - split; [|split; [exact K1|]].
    2:{ intros R1. eapply Unref_blk; [exact I0| | |exact R1].
        - intros x. pose proof (PF x). pose proof (plus_le F (removelast (cblocks c) ++ [b]) x). lia.
        - apply in_plus; [exact PF|]. apply in_or_app. right. now left. }
     split; [exact I1|]. apply (Cok_keep h); [|now apply Cok_SetBack]. intros x HI. apply K1. now apply in_plus.
Qed.
Lemma pop_back_st h c : St F h c -> cblocks c <> [] -> St F (Unref h (back c)) (PopBack c) /\ keeps (plus F (removelast (cblocks c))) h (Unref h (back c)).
Proof.
  intros [I K] N. destruct (Inv_Unref h (plus F (removelast (cblocks c))) (back c)) as (I1 & K1).
  - eapply Inv_ext; [|exact I]. intros x. unfold plus. rewrite (split_back c N) at 1. rewrite cnt_app, cnt_one. lia.
  - intros x. pose proof (PF x). pose proof (plus_le F (removelast (cblocks c)) x). lia.
  - split; [|exact K1]. split; [exact I1|]. apply (Cok_keep h); [|now apply Cok_PopBack]. intros x HI. apply K1. now apply in_plus.
Qed.
(** changing the last block in place *)
Lemma back_changed h h' c : St F h c -> cblocks c <> [] -> is_mutable h (back c) = true -> Inv h' (plus F (cblocks c)) -> (forall x, x <> back c -> data h' x = data h x) ->
  Cok h' c /\ keeps F h h' /\ flat h' (cblocks c) = flat h (removelast (cblocks c)) ++ data h' (back c).
Proof.
  intros [I K] N M I' D. destruct (own_back F h c PF I N M) as [F0 NI]. split; [|split].
  - apply (Cok_keep_back h); [|exact K]. intros x HI. apply D. intros ->. contradiction.
  - intros x P. apply D. intros ->. lia.
  - rewrite flat_split_back by assumption. f_equal. apply flat_keep. intros x HI. apply D. intros ->. contradiction.
Qed.

Lemma append_finish h c mn mx fill : St F h c -> cblocks c <> [] -> can_append h (back c) mn = true -> csize c = zlen (flat h (cblocks c)) -> 0 <= mn <= mx -> mn <= SIZE_MAX - csize c ->
  (forall n, 0 <= n <= mx -> zlen (fill n) = n) ->
  exists n h' c', (let* (n, h1) := Block_AppendBuffer h (back c) (Z.min mx (SIZE_MAX - csize c)) fill in check (mn <=? n) (Some (n, h1, with_size c (csize c + n)))) = Some (n, h', c') /\
    mn <= n <= mx /\ Post F h h' c' (flat h (cblocks c) ++ fill n).
Proof.
  intros ST N CA SZ MN MS FI. pose proof ST as [I K]. unfold can_append in CA. apply andb_prop in CA as [M L]. apply Z.leb_le in L.
  pose proof (in_plus F _ _ PF (back_in c N)) as PB0. destruct (mutable_unique _ _ _ I PB0 M) as (k & C & R1 & _ & _).
  destruct (inv_live _ _ _ I PB0) as (_ & _ & KO). unfold block_ok in KO. rewrite C in KO. fold (data h (back c)) in KO. fold (size h (back c)) in KO. pose proof (size_nonneg h (back c)) as SN.
  unfold Block_AppendBuffer. rewrite M. cbn [check]. unfold space_after, capacity in *. rewrite C in *.
  set (s := if is_empty h (back c) then 0 else sb (blk h (back c))).
  assert (SB : 0 <= s /\ mn <= k - s - size h (back c)).
  { unfold s. destruct (is_empty h (back c)) eqn:EM; [|lia]. pose proof (is_empty_spec _ _ EM) as D0. assert (size h (back c) = 0) by (unfold size; now rewrite D0). lia. }
  clearbody s. set (n := Z.min (k - s - size h (back c)) (Z.min mx (SIZE_MAX - csize c))). assert (NB : mn <= n <= mx /\ n <= k - s - size h (back c)) by lia. clearbody n.
  destruct (Z.leb_spec mn n); [|lia]. eexists n, _, _. split; [reflexivity|]. split; [lia|].
  pose proof (FI n ltac:(lia)) as FL.
  destruct (write_step h _ (back c) k s (data h (back c) ++ fill n) I PB0 C R1) as (A1 & A2 & A3 & _); [lia|rewrite zlen_app, FL; fold (size h (back c)); lia|].
  set (h' := set_blk h (back c) (with_dat (blk h (back c)) s (data h (back c) ++ fill n))) in *. clearbody h'.
  destruct (back_changed h h' c ST N M A1 A3) as (K' & KE & FL').
  assert (CT : content h' (with_size c (csize c + n)) = flat h (cblocks c) ++ fill n).
  { rewrite content_flat by assumption. cbn [with_size cblocks]. rewrite FL', A2, (flat_split_back h c N). now rewrite app_assoc. }
  split; [exact A1|]. split; [|split; [exact CT|exact KE]].
  constructor; [|intros Q; exfalso; exact (N Q)|exact K']. rewrite CT. cbn [with_size csize]. rewrite zlen_app, FL. lia.
Qed.
Lemma Post_trans h h1 h' c' s : keeps F h h1 -> Post F h1 h' c' s -> Post F h h' c' s.
Proof. intros K (A & B & C & D). split; [exact A|]. split; [exact B|]. split; [exact C|]. eapply keeps_trans; eassumption. Qed.
Lemma keeps_F l h h' : keeps (plus F l) h h' -> keeps F h h'.
Proof. apply keeps_le. intros x. apply plus_le. Qed.
Lemma back_push h c b : back (PushBack h c b) = b.
Proof. unfold back. cbn [PushBack with_blocks cblocks]. apply last_last. Qed.
Lemma back_set c b : back (SetBack_keep c b) = b.
Proof. unfold back. cbn [SetBack_keep with_blocks cblocks]. apply last_last. Qed.
Lemma push_ne h c b : cblocks (PushBack h c b) <> [].
Proof. cbn [PushBack with_blocks cblocks]. intros Q. apply app_eq_nil in Q as [_ Q]. discriminate. Qed.
Lemma set_ne c b : cblocks (SetBack_keep c b) <> [].
Proof. cbn [SetBack_keep with_blocks cblocks]. intros Q. apply app_eq_nil in Q as [_ Q]. discriminate. Qed.

(** a new last block *)
Lemma append_fresh h c mn rec mx opt fill : opt_ok opt -> St F h c -> csize c = zlen (flat h (cblocks c)) -> 1 <= mn <= mx -> mn <= kMaxCapacity -> mn <= SIZE_MAX - csize c -> (forall n, 0 <= n <= mx -> zlen (fill n) = n) ->
  exists n h' c', (let* k := NewBlockCapacity c 0 mn rec opt in let* (b, h) := NewInternal E h k in
     let* (n, h1) := Block_AppendBuffer h (back (PushBack h c b)) (Z.min mx (SIZE_MAX - csize (PushBack h c b))) fill in check (mn <=? n) (Some (n, h1, with_size (PushBack h c b) (csize (PushBack h c b) + n)))) = Some (n, h', c') /\
    mn <= n <= mx /\ Post F h h' c' (flat h (cblocks c) ++ fill n).
Proof.
  intros OO [I K] SZ MN MC MS FI. pose proof (zlen_nonneg (flat h (cblocks c))). destruct (new_capacity c 0 mn rec opt OO) as (k & EK & KL & KB); [lia|lia|lia|lia|]. rewrite EK.
  destruct (new_step E EO h _ k I KB) as (n & h1 & k' & E1 & I1 & D1 & RN & _ & DN & KB' & AB1 & _ & _). rewrite E1.
  assert (KE : keeps (plus F (cblocks c)) h h1) by (eapply fresh_keeps; eassumption).
  assert (FK : flat h1 (cblocks c) = flat h (cblocks c)) by (eapply keeps_flat; [exact KE|intros x HI; now apply in_plus]).
  destruct (append_finish h1 (PushBack h1 c n) mn mx fill) as (m & h' & c' & E2 & MB & PO).
  - apply push_back_st; [exact I1|]. eapply Cok_keep; [|exact K]. intros x HI. apply KE. now apply in_plus.
  - apply push_ne.
  - rewrite back_push. eapply AB_can; [exact AB1|]. unfold size. rewrite DN. change (zlen (@nil Z)) with 0. lia.
  - cbn [PushBack with_blocks cblocks csize]. rewrite flat_app, flat_one, DN, app_nil_r, FK. exact SZ.
  - lia.
  - exact MS.
  - exact FI.
  - exists m, h', c'. split; [exact E2|]. split; [exact MB|]. apply (Post_trans _ h1); [eapply keeps_F; exact KE|].
    cbn [PushBack with_blocks cblocks] in PO. rewrite flat_app, flat_one, DN, app_nil_r, FK in PO. exact PO.
Qed.

Lemma AppendBuffer_ok h c mn rec mx opt fill : opt_ok opt -> Inv h (plus F (cblocks c)) -> Ok h c -> 0 <= mn <= mx -> mn <= kMaxCapacity -> csize c + mn <= SIZE_MAX -> (forall n, 0 <= n <= mx -> zlen (fill n) = n) ->
  exists n h' c', AppendBuffer E h c mn rec mx opt fill = Some (n, h', c') /\ mn <= n <= mx /\ Post F h h' c' (content h c ++ fill n).
Proof.
  intros OO I OK MN MC MS FI. pose proof OK as [SZ SH CK]. assert (ST : St F h c) by (split; assumption).
  assert (SN : 0 <= csize c) by (rewrite SZ; apply zlen_nonneg).
  assert (NOP : mn = 0 -> exists n h' c', Some (0, h, c) = Some (n, h', c') /\ mn <= n <= mx /\ Post F h h' c' (content h c ++ fill n)).
  { intros ->. exists 0, h, c. split; [reflexivity|]. split; [lia|]. split; [exact I|]. split; [exact OK|]. split; [|apply keeps_refl].
    pose proof (FI 0 ltac:(lia)) as F0. destruct (fill 0); [now rewrite app_nil_r|]. rewrite zlen_cons in F0. pose proof (zlen_nonneg l). lia. }
  unfold AppendBuffer. unfold check at 1 2. destruct (Z.leb_spec mn mx); [|lia]. destruct (Z.leb_spec mn (SIZE_MAX - csize c)); [|lia].
  destruct (cblocks c) as [|b0 bs0] eqn:EB.
  - specialize (SH eq_refl). unfold check at 1. destruct (Z.leb_spec (csize c) kMaxShortDataSize); [|lia].
    rewrite (content_short h c EB) in *. destruct ((mn <=? kMaxShortDataSize - csize c) && (rec <=? kMaxShortDataSize - csize c) && hint_small opt) eqn:C1.
    { apply andb_prop in C1 as [C1 _]. apply andb_prop in C1 as [C1 _]. apply Z.leb_le in C1. set (n := Z.min mx (kMaxShortDataSize - csize c)). assert (NB : mn <= n <= mx /\ n <= kMaxShortDataSize - csize c) by lia. clearbody n.
      eexists _, _, _. split; [reflexivity|]. split; [lia|]. pose proof (FI n ltac:(lia)) as FL.
      assert (CT : content h {| csize := csize c + n; cshort := short_data c ++ fill n; cblocks := []; coffs := None |} = short_data c ++ fill n).
      { unfold content. cbn [cblocks]. unfold short_data at 1. cbn [csize cshort]. apply ztake_all. rewrite zlen_app, FL. lia. }
      split; [exact I|]. split; [|split; [exact CT|apply keeps_refl]].
      constructor; cbn [csize cblocks]; [rewrite CT, zlen_app, FL; lia|lia|]. apply Cok_nil; [reflexivity|now left]. }
    destruct ((mn <=? kMaxShortDataSize - csize c) && (mn =? 0)) eqn:C2.
    { apply andb_prop in C2 as [_ C2]. apply Z.eqb_eq in C2. exact (NOP C2). }
    assert (M1 : 1 <= mn).
    { destruct (Z.eq_dec mn 0) as [->|]; [|lia]. rewrite Z.eqb_refl, andb_true_r in C2. apply Z.leb_gt in C2. lia. }
    destruct (Z.ltb_spec (kMaxCapacity - csize c) mn).
    + destruct (new_short (plus F []) h kMaxShortDataSize (short_data c) I) as (n & h1 & h2 & k' & E1 & E2 & KB' & AB2 & I2 & RN & D2 & DN); [consts; lia|consts; lia|]. rewrite E1, E2.
      assert (KE : keeps (plus F []) h h2) by (eapply fresh_keeps; eassumption).
      destruct (append_fresh h2 (PushBack h2 c n) mn rec mx opt fill OO) as (m & h' & c' & E3 & MB & PO).
      * apply push_back_st; [rewrite EB; exact I2|]. eapply Cok_keep; [|exact CK]. rewrite EB. easy.
      * cbn [PushBack with_blocks cblocks csize]. rewrite EB. cbn [app]. rewrite flat_one, DN. exact SZ.
      * lia.
      * exact MC.
      * cbn [PushBack with_blocks csize]. lia.
      * exact FI.
      * exists m, h', c'. split; [exact E3|]. split; [exact MB|]. apply (Post_trans _ h2); [eapply keeps_F; exact KE|].
        cbn [PushBack with_blocks cblocks] in PO. rewrite EB in PO. cbn [app] in PO. rewrite flat_one, DN in PO. exact PO.
    + destruct (new_capacity c (csize c) (Z.max mn (kMaxShortDataSize - csize c)) rec opt OO) as (k & EK & KL & KB); [lia|lia|consts; lia|lia|]. rewrite EK.
      destruct (new_short (plus F []) h k (short_data c) I) as (n & h1 & h2 & k' & E1 & E2 & KB' & AB2 & I2 & RN & D2 & DN); [consts; lia|consts; lia|]. rewrite E1, E2.
      assert (KE : keeps (plus F []) h h2) by (eapply fresh_keeps; eassumption).
      destruct (append_finish h2 (PushBack h2 c n) mn mx fill) as (m & h' & c' & E3 & MB & PO).
      * apply push_back_st; [rewrite EB; exact I2|]. eapply Cok_keep; [|exact CK]. rewrite EB. easy.
      * apply push_ne.
      * rewrite back_push. eapply AB_can; [exact AB2|]. unfold size. rewrite DN, <- SZ. lia.
      * cbn [PushBack with_blocks cblocks csize]. rewrite EB. cbn [app]. rewrite flat_one, DN. exact SZ.
      * lia.
      * cbn [PushBack with_blocks csize]. lia.
      * exact FI.
      * exists m, h', c'. split; [exact E3|]. split; [exact MB|]. apply (Post_trans _ h2); [eapply keeps_F; exact KE|].
        cbn [PushBack with_blocks cblocks] in PO. rewrite EB in PO. cbn [app] in PO. rewrite flat_one, DN in PO. exact PO.
  - assert (N : cblocks c <> []) by (rewrite EB; discriminate). rewrite <- EB in *. clear b0 bs0 EB. rewrite (content_flat h c N) in *.
    pose proof (in_plus F _ _ PF (back_in c N)) as PBk. pose proof (size_nonneg h (back c)) as SBN.
    assert (SBC : size h (back c) <= csize c). { rewrite SZ, (flat_split_back h c N), zlen_app. fold (size h (back c)). pose proof (zlen_nonneg (flat h (removelast (cblocks c)))). lia. }
    destruct (can_append h (back c) mn) eqn:CA; [apply append_finish; auto; lia|].
    destruct (Z.eqb_spec mn 0) as [M0|M0]; [exact (NOP M0)|].
    destruct (tiny h (back c) && (mn <=? kMaxCapacity - size h (back c))) eqn:TI.
    { apply andb_prop in TI as [_ TI]. apply Z.leb_le in TI.
      destruct (new_capacity c (size h (back c)) mn rec opt OO) as (k & EK & KL & KB); [lia|lia|lia|lia|]. rewrite EK.
      destruct (new_one (plus F (cblocks c)) h k (back c) I PBk KB) as (n & h1 & h2 & k' & E1 & E2 & KB' & AB2 & I2 & RN & D2 & DN); [lia|]. rewrite E1, E2. unfold SetBack.
      assert (KE : keeps (plus F (cblocks c)) h h2) by (eapply fresh_keeps; eassumption).
      assert (CK2 : Cok h2 c) by (eapply Cok_keep; [|exact CK]; intros x HI; apply KE; now apply in_plus).
      destruct (set_back_st h2 c n I2 CK2 N) as (ST3 & KE3 & BK). specialize (BK (proj1 (proj2 AB2))). set (h3 := Unref h2 (back c)) in *. clearbody h3.
      assert (NB : In n (removelast (cblocks c) ++ [n])) by (apply in_or_app; right; now left).
      assert (AB3 : AB h3 n k') by (unfold AB; rewrite BK; exact AB2).
      assert (FK : flat h3 (removelast (cblocks c) ++ [n]) = flat h (cblocks c)).
      { rewrite (keeps_flat _ h2 h3 _ KE3) by (intros x HI; now apply in_plus). rewrite flat_app, flat_one, DN, (flat_split_back h c N). f_equal.
        eapply keeps_flat; [exact KE|]. intros x HI. apply in_plus; [exact PF|now apply In_removelast]. }
      destruct (append_finish h3 (SetBack_keep c n) mn mx fill) as (m & h' & c' & E3 & MB & PO).
      - exact ST3.
      - apply set_ne.
      - rewrite back_set. eapply AB_can; [exact AB3|]. unfold size at 1. unfold data. rewrite BK. fold (data h2 n). rewrite DN. fold (size h (back c)). lia.
      - cbn [SetBack_keep with_blocks cblocks csize]. rewrite FK. exact SZ.
      - lia.
      - cbn [SetBack_keep with_blocks csize]. lia.
      - exact FI.
      - exists m, h', c'. split; [exact E3|]. split; [exact MB|]. apply (Post_trans _ h3); [eapply keeps_trans; [eapply keeps_F; exact KE|eapply keeps_F; exact KE3]|].
        cbn [SetBack_keep with_blocks cblocks] in PO. rewrite FK in PO. exact PO. }
    assert (S1 : 0 < size h (back c)).
    { destruct (Z.eq_dec (size h (back c)) 0) as [Q|]; [|lia]. exfalso. unfold tiny in TI. rewrite Q in TI. consts. replace (mn <=? kMaxCapacity - 0) with true in TI by (symmetry; apply Z.leb_le; lia). discriminate. }
    assert (FR : forall h1 c1, keeps F h h1 -> St F h1 c1 -> csize c1 = csize c -> flat h1 (cblocks c1) = flat h (cblocks c) ->
      exists n h' c', (let* k := NewBlockCapacity c1 0 mn rec opt in let* (b, h) := NewInternal E h1 k in
     let* (n, h1) := Block_AppendBuffer h (back (PushBack h c1 b)) (Z.min mx (SIZE_MAX - csize (PushBack h c1 b))) fill in check (mn <=? n) (Some (n, h1, with_size (PushBack h c1 b) (csize (PushBack h c1 b) + n)))) = Some (n, h', c') /\ mn <= n <= mx /\ Post F h h' c' (flat h (cblocks c) ++ fill n)).
    { intros h1 c1 K1 ST1 SZ1 FL1. destruct (append_fresh h1 c1 mn rec mx opt fill OO ST1) as (m & h' & c' & E3 & MB & PO); [rewrite SZ1, FL1; exact SZ|lia|lia|lia|exact FI|].
      exists m, h', c'. split; [exact E3|]. split; [exact MB|]. apply (Post_trans _ h1); [exact K1|]. rewrite FL1 in PO. exact PO. }
    destruct (wasteful E h (back c) 0) eqn:WA.
    2:{ apply FR; auto. apply keeps_refl. }
    destruct (copy_step E EO h _ (back c) I PBk) as (n & h1 & E1 & I1 & RN & D1 & DN).
    { pose proof (wasteful_size _ _ _ 0 I PBk ltac:(lia) WA). lia. }
    rewrite E1. cbv beta iota zeta.
    assert (KE : keeps (plus F (cblocks c)) h h1) by (eapply fresh_keeps; eassumption).
    assert (CK1 : Cok h1 c) by (eapply Cok_keep; [|exact CK]; intros x HI; apply KE; now apply in_plus).
    set (l := back c) in *. set (c1 := SetBack_keep c n) in *.
    assert (B1 : cblocks c1 = removelast (cblocks c) ++ [n]) by reflexivity.
    assert (I1' : Inv h1 (fun x => plus F (cblocks c1) x + one l x)).
    { eapply Inv_ext; [|exact I1]. intros x. unfold plus. rewrite B1. rewrite (split_back c N) at 1. rewrite !cnt_app, !cnt_one. fold l. lia. }
    assert (P1 : forall x, 0 <= plus F (cblocks c1) x) by (intros x; pose proof (PF x); pose proof (plus_le F (cblocks c1) x); lia).
    assert (FL1 : flat h1 (cblocks c1) = flat h (cblocks c)).
    { rewrite B1, flat_app, flat_one, DN, (flat_split_back h c N). f_equal. eapply keeps_flat; [exact KE|]. intros x HI. apply in_plus; [exact PF|now apply In_removelast]. }
    assert (CKc1 : Cok h1 c1) by (now apply Cok_SetBack).
    (* the old block is dropped *)
    assert (DROP : forall h2, keeps F h h2 -> Inv h2 (fun x => plus F (cblocks c1) x + one l x) -> (forall x, In x (cblocks c1) -> data h2 x = data h1 x) ->
      keeps F h (Unref h2 l) /\ St F (Unref h2 l) c1 /\ flat (Unref h2 l) (cblocks c1) = flat h (cblocks c)).
    { intros h2 K2 I2 D2. destruct (Inv_Unref h2 _ l I2 P1) as (I3 & K3). split; [eapply keeps_trans; [exact K2|eapply keeps_F; exact K3]|]. split.
      - split; [exact I3|]. eapply Cok_keep; [|exact CKc1]. intros x HI. rewrite K3 by (now apply in_plus). now apply D2.
      - rewrite <- FL1. apply flat_keep. intros x HI. rewrite K3 by (now apply in_plus). now apply D2. }
    unfold TryClear. destruct (is_mutable h1 l) eqn:MU.
    + assert (PL : 0 < plus F (cblocks c1) l + one l l) by (rewrite one_same; pose proof (P1 l); lia).
      destruct (mutable_unique _ _ _ I1' PL MU) as (k & C & R1 & RL & _). cbv beta in RL. rewrite one_same in RL.
      destruct (inv_live _ _ _ I1' PL) as (_ & _ & KO). unfold block_ok in KO. rewrite C in KO. pose proof (zlen_nonneg (dat (blk h1 l))).
      destruct (write_step h1 _ l k (sb (blk h1 l)) [] I1' PL C R1) as (A1 & A2 & A3 & A4 & A5 & A6); [lia|change (zlen (@nil Z)) with 0; lia|].
      set (h2 := set_blk h1 l (with_dat (blk h1 l) (sb (blk h1 l)) [])) in *. clearbody h2.
      assert (NL : ~ In l (cblocks c1)). { intros HI. pose proof (in_plus F _ _ PF HI). lia. }
      assert (D2 : forall x, In x (cblocks c1) -> data h2 x = data h1 x) by (intros x HI; apply A3; intros ->; contradiction).
      assert (K2 : keeps F h h2).
      { eapply keeps_trans; [eapply keeps_F; exact KE|]. intros x P. apply A3. intros ->. pose proof (plus_le F (cblocks c1) l). lia. }
      destruct (can_append h2 l mn) eqn:CA2; cbn [andb].
      * assert (FK2 : flat h2 (cblocks c1 ++ [l]) = flat h (cblocks c)).
        { rewrite flat_app, flat_one, A2, app_nil_r, <- FL1. now apply flat_keep. }
        destruct (append_finish h2 (PushBack h2 c1 l) mn mx fill) as (m & h' & c' & E3 & MB & PO).
        -- apply push_back_st; [exact A1|]. eapply Cok_keep; [|exact CKc1]. exact D2.
        -- apply push_ne.
        -- rewrite back_push. exact CA2.
        -- cbn [PushBack with_blocks cblocks csize]. rewrite FK2. exact SZ.
        -- lia.
        -- cbn [PushBack with_blocks csize c1 SetBack_keep]. lia.
        -- exact FI.
        -- exists m, h', c'. split; [exact E3|]. split; [exact MB|]. apply (Post_trans _ h2); [exact K2|]. cbn [PushBack with_blocks cblocks] in PO. rewrite FK2 in PO. exact PO.
      * destruct (DROP h2 K2 A1 D2) as (X1 & X2 & X3). now apply FR.
    + cbn [andb]. destruct (DROP h1 (keeps_F _ _ _ KE) I1' (fun _ _ => eq_refl)) as (X1 & X2 & X3). now apply FR.
Qed.

Lemma append_loop_ok opt : opt_ok opt -> forall fuel h c src, (length src <= fuel)%nat -> Inv h (plus F (cblocks c)) -> Ok h c -> csize c + zlen src <= SIZE_MAX ->
  exists h' c', append_loop E fuel h c src opt = Some (h', c') /\ Post F h h' c' (content h c ++ src).
Proof.
  intros OO fuel. induction fuel as [|fuel IH]; intros h c src FU I OK MS.
  - destruct src; [|cbn [length] in FU; lia]. exists h, c. split; [reflexivity|]. split; [exact I|]. split; [exact OK|]. split; [now rewrite app_nil_r|apply keeps_refl].
  - destruct src as [|y src0] eqn:ES.
    + exists h, c. split; [reflexivity|]. split; [exact I|]. split; [exact OK|]. split; [now rewrite app_nil_r|apply keeps_refl].
    + cbn [append_loop]. rewrite <- ES in *. assert (L1 : 1 <= zlen src) by (rewrite ES, zlen_cons; pose proof (zlen_nonneg src0); lia).
      destruct (AppendBuffer_ok h c 1 (zlen src) (zlen src) opt (fun n => ztake n src) OO I OK) as (n & h1 & c1 & E1 & NB & I1 & OK1 & CT1 & K1); [lia|consts; lia|lia|intros n NB; rewrite zlen_ztake; lia|].
      rewrite E1. destruct (IH h1 c1 (zdrop n src)) as (h2 & c2 & E2 & PO).
      * assert (zlen (zdrop n src) <= Z.of_nat fuel). { rewrite zlen_zdrop by lia. unfold zlen in *. lia. } unfold zlen in *. lia.
      * exact I1.
      * exact OK1.
      * rewrite (ok_size _ _ OK1), CT1, zlen_app, <- (ok_size _ _ OK), zlen_ztake, zlen_zdrop by lia. lia.
      * exists h2, c2. split; [exact E2|]. apply (Post_trans _ h1); [exact K1|]. rewrite CT1, <- app_assoc, ztake_zdrop in PO. exact PO.
Qed.
Lemma Append_ok h c src opt : opt_ok opt -> Inv h (plus F (cblocks c)) -> Ok h c -> csize c + zlen src <= SIZE_MAX ->
  exists h' c', Append E h c src opt = Some (h', c') /\ Post F h h' c' (content h c ++ src).
Proof. intros OO I OK MS. apply append_loop_ok; auto. Qed.
End A.
