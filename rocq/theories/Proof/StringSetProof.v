(** LinearSortedStringSet: reading an encoding. *)
From Verif Require Import Base.Bytes Spec.VarintSpec Spec.StringSetSpec Model.Varint Model.StringSet Proof.VarintProof Proof.CodecLemmas
  Proof.CommonPrefixProof.

Lemma guard_true {A} b (k : option A) : b = true -> guard b k = k.
Proof. intros ->. reflexivity. Qed.
Lemma zlen_zslice {A} p n (l : list A) : 0 <= p -> 0 <= n -> p + n <= zlen l -> zlen (zslice p n l) = n.
Proof. intros. unfold zslice. rewrite zlen_ztake, zlen_zdrop. lia. Qed.

Lemma zslice_zdrop {A} p n (l : list A) : 0 <= p -> 0 <= n -> zdrop p l = zslice p n l ++ zdrop (p + n) l.
Proof. intros. unfold zslice. rewrite (Z.add_comm p n), <- zdrop_zdrop by lia. symmetry. apply ztake_zdrop. Qed.

(** ** Varints at a position *)
Lemma read_at enc p t rest v : bytes enc -> 0 <= p -> zdrop p enc = t ++ rest -> varint_of v t ->
  read_varint_at enc p = Some (v, p + zlen t) /\ zdrop (p + zlen t) enc = rest /\ p + zlen t <= zlen enc /\ 0 < zlen t.
Proof.
  intros B Hp E (V & L & Bv & Lt). unfold read_varint_at.
  assert (W : bytes (zdrop p enc)) by (apply bytes_zdrop; exact B).
  pose proof (read_varint_exact V64 false (zdrop p enc) (or_intror eq_refl) W) as (_ & R & _).
  assert (Rd : ReadVarintArray V64 false (zdrop p enc) = VOk v (length t)).
  { apply R. exists t, rest. repeat split; auto; try (symmetry; exact Bv). discriminate. }
  rewrite Rd. split; [reflexivity|].
  assert (N : 0 < zlen t) by (destruct V as (i & b & -> & _); rewrite zlen_app, zlen_cons; pose proof (zlen_nonneg i); pose proof (zlen_nonneg (@nil Z)); lia).
  split; [|split].
  - rewrite Z.add_comm, <- zdrop_zdrop by lia. rewrite E. apply zdrop_app_exact.
  - assert (zlen (zdrop p enc) = zlen t + zlen rest) by (rewrite E; apply zlen_app).
    rewrite zlen_zdrop in *. pose proof (zlen_nonneg rest). lia.
  - exact N.
Qed.
Lemma base128_nonneg l : 0 <= base128 l.
Proof. induction l as [|b l IH]; cbn [base128]; [lia|]. pose proof (Z.mod_pos_bound b 128 ltac:(lia)). lia. Qed.
Lemma read_at_inv enc p v q : bytes enc -> 0 <= p <= zlen enc -> read_varint_at enc p = Some (v, q) ->
  exists t, varint_of v t /\ zdrop p enc = t ++ zdrop q enc /\ q = p + zlen t /\ p < q <= zlen enc /\ 0 <= v < 2 ^ 64.
Proof.
  intros B Hp E. unfold read_varint_at in E.
  destruct (ReadVarintArray V64 false (zdrop p enc)) as [| |w n] eqn:R; try discriminate. injection E as -> <-.
  assert (W : bytes (zdrop p enc)) by (apply bytes_zdrop; exact B).
  apply (read_varint_exact V64 false (zdrop p enc) (or_intror eq_refl) W) in R.
  destruct R as (t & rest & E & V & L & M & Ev & Lt & _).
  assert (VO : varint_of v t) by (repeat split; auto; cbn [vmax V64] in M; lia).
  destruct (read_at enc p t rest v B ltac:(lia) E VO) as (R' & D & Le & Po).
  exists t. split; [exact VO|]. assert (Q : p + Z.of_nat n = p + zlen t) by (unfold zlen; lia). rewrite Q.
  split; [rewrite D; exact E|]. split; [reflexivity|]. split; [lia|]. split; [rewrite Ev; apply base128_nonneg | exact Lt].
Qed.

Lemma tag_even u : Z.shiftr (2 * u) 1 = u /\ (Z.land (2 * u) 1 =? 0) = true.
Proof.
  split; [rewrite Z.shiftr_div_pow2 by lia; change (2 ^ 1) with 2; rewrite Z.mul_comm, Z.div_mul by lia; reflexivity|].
  change 1 with (2 ^ 1 - 1) at 1. rewrite land_ones_mod by lia. change (2 ^ 1) with 2. rewrite Z.mul_comm, Z.mod_mul by lia. reflexivity.
Qed.
Lemma tag_odd u : Z.shiftr (2 * u + 1) 1 = u /\ (Z.land (2 * u + 1) 1 =? 0) = false.
Proof.
  split; [rewrite Z.shiftr_div_pow2 by lia; change (2 ^ 1) with 2; rewrite Z.mul_comm, Z.div_add_l by lia; change (1 / 2) with 0; lia|].
  change 1 with (2 ^ 1 - 1) at 2. rewrite land_ones_mod by lia. change (2 ^ 1) with 2.
  rewrite Z.add_comm, Z.mul_comm, Z.mod_add by lia. reflexivity.
Qed.
Lemma tag_cases t : 0 <= t -> (exists u, 0 <= u /\ t = 2 * u) \/ (exists u, 0 <= u /\ t = 2 * u + 1).
Proof.
  intros H. pose proof (Z.div_mod t 2 ltac:(lia)). pose proof (Z.mod_pos_bound t 2 ltac:(lia)). pose proof (Z.div_pos t 2 ltac:(lia) ltac:(lia)).
  destruct (Z.eq_dec (t mod 2) 0); [left|right]; exists (t / 2); lia.
Qed.

(** ** The first element of an encoding *)
Inductive head (enc prev : list Z) (p : Z) (e : list Z) (es : list (list Z)) : Prop :=
| head_unshared q u : read_varint_at enc p = Some (2 * u, q) -> p < q -> 0 <= u -> q + u <= zlen enc -> zlen e = u ->
    zslice q u enc = e -> encodes e (zdrop (q + u) enc) es -> head enc prev p e es
| head_shared q r n u : read_varint_at enc p = Some (2 * u + 1, q) -> read_varint_at enc q = Some (n - 1, r) ->
    p < q -> q < r -> 1 <= n <= zlen prev -> 0 <= u -> r + u <= zlen enc -> zlen e = n + u ->
    e = ztake n prev ++ zslice r u enc -> encodes e (zdrop (r + u) enc) es -> head enc prev p e es.

Lemma encodes_head enc p prev e es : bytes enc -> 0 <= p <= zlen enc -> encodes prev (zdrop p enc) (e :: es) ->
  p <> zlen enc /\ head enc prev p e es.
Proof.
  intros B Hp H. remember (zdrop p enc) as d eqn:D. remember (e :: es) as l eqn:El.
  destruct H as [prev | prev t u enc' es' V H | prev t s n u enc' es' V Vs Hn H]; [discriminate | injection El as -> -> | injection El as <- <-].
  - pose proof (zlen_nonneg e) as He.
    destruct (read_at enc p t (e ++ enc') _ B ltac:(lia) (eq_sym D) V) as (R & Dq & Le & Po).
    assert (Lq : zlen (zdrop (p + zlen t) enc) = zlen e + zlen enc') by (rewrite Dq; apply zlen_app).
    rewrite zlen_zdrop in Lq. pose proof (zlen_nonneg enc').
    split; [lia|]. apply head_unshared with (p + zlen t) (zlen e); auto; try lia.
    + unfold zslice. rewrite Dq. apply ztake_app_exact.
    + rewrite (Z.add_comm (p + zlen t)). rewrite <- (zdrop_zdrop (zlen e) (p + zlen t)) by lia. rewrite Dq, zdrop_app_exact. exact H.
  - pose proof (zlen_nonneg u) as Hu.
    destruct (read_at enc p t (s ++ u ++ enc') _ B ltac:(lia) (eq_sym D) V) as (R & Dq & Le & Po).
    destruct (read_at enc (p + zlen t) s (u ++ enc') _ B ltac:(lia) Dq Vs) as (Rs & Dr & Les & Pos).
    assert (Lq : zlen (zdrop (p + zlen t + zlen s) enc) = zlen u + zlen enc') by (rewrite Dr; apply zlen_app).
    rewrite zlen_zdrop in Lq. pose proof (zlen_nonneg enc').
    assert (Sl : zslice (p + zlen t + zlen s) (zlen u) enc = u) by (unfold zslice; rewrite Dr; apply ztake_app_exact).
    split; [lia|]. apply head_shared with (p + zlen t) (p + zlen t + zlen s) n (zlen u); auto; try lia.
    + rewrite zlen_app, zlen_ztake. lia.
    + rewrite Sl. reflexivity.
    + replace (p + zlen t + zlen s + zlen u) with (zlen u + (p + zlen t + zlen s)) by lia.
      rewrite <- zdrop_zdrop by lia. rewrite Dr, zdrop_app_exact. exact H.
Qed.
Lemma head_encodes enc p prev e es : bytes enc -> 0 <= p <= zlen enc -> head enc prev p e es -> encodes prev (zdrop p enc) (e :: es).
Proof.
  intros B Hp [q u R Hq Hu Hb Le Sl H | q r n u R Rs Hq Hr Hn Hu Hb Le Ee H].
  - destruct (read_at_inv _ _ _ _ B Hp R) as (t & V & D & -> & _). rewrite D.
    assert (Ez : zdrop (p + zlen t) enc = e ++ zdrop (p + zlen t + u) enc).
    { rewrite <- Sl. apply zslice_zdrop; pose proof (zlen_nonneg t); lia. }
    rewrite Ez. apply encodes_unshared; [rewrite Le; exact V | exact H].
  - destruct (read_at_inv _ _ _ _ B Hp R) as (t & V & D & Eq & Bq & _).
    destruct (read_at_inv enc q (n - 1) r B ltac:(lia) Rs) as (s & Vs & Ds & Er & Br & _). rewrite D, Ds.
    assert (Ez : zdrop r enc = zslice r u enc ++ zdrop (r + u) enc).
    { apply zslice_zdrop; lia. }
    rewrite Ez, Ee. apply encodes_shared; auto; [rewrite zlen_zslice by lia; exact V | rewrite <- Ee; exact H].
Qed.
Lemma encodes_end enc p prev : 0 <= p <= zlen enc -> encodes prev (zdrop p enc) [] -> p = zlen enc.
Proof.
  intros Hp H. remember (zdrop p enc) as d eqn:D. remember (@nil (list Z)) as l eqn:El.
  destruct H; try discriminate. assert (zlen (zdrop p enc) = 0) by (rewrite <- D; reflexivity). rewrite zlen_zdrop in *. lia.
Qed.

Lemma encodes_count prev enc es : encodes prev enc es -> zlen es <= zlen enc.
Proof.
  assert (W : forall v t, varint_of v t -> 1 <= zlen t).
  { intros v t ((i & b & -> & _) & _). rewrite zlen_app, zlen_cons. pose proof (zlen_nonneg i). pose proof (zlen_nonneg (@nil Z)). lia. }
  induction 1 as [prev | prev t u enc es V H IH | prev t s n u enc es V Vs Hn H IH]; [cbn; lia | |];
    rewrite !zlen_app, zlen_cons; apply W in V; pose proof (zlen_nonneg u); [lia|]. apply W in Vs. lia.
Qed.
Lemma encodes_length prev enc es : encodes prev enc es -> Forall (fun e => zlen e <= zlen prev + zlen enc) es.
Proof.
  induction 1 as [prev | prev t u enc es V H IH | prev t s n u enc es V Vs Hn H IH]; constructor;
    rewrite ?zlen_app, ?zlen_ztake.
  - pose proof (zlen_nonneg prev); pose proof (zlen_nonneg t); pose proof (zlen_nonneg enc); lia.
  - eapply Forall_impl; [|exact IH]. cbv beta. intros a Ha. pose proof (zlen_nonneg prev); pose proof (zlen_nonneg t). lia.
  - pose proof (zlen_nonneg t); pose proof (zlen_nonneg enc); pose proof (zlen_nonneg s). lia.
  - eapply Forall_impl; [|exact IH]. cbv beta. intros a Ha. rewrite zlen_app, zlen_ztake in Ha.
    pose proof (zlen_nonneg s); pose proof (zlen_nonneg t). lia.
Qed.
Lemma encodes_bytes prev enc es : bytes prev -> bytes enc -> encodes prev enc es -> Forall bytes es.
Proof.
  intros Bp B H. revert Bp B. induction H as [prev | prev t u enc es V H IH | prev t s n u enc es V Vs Hn H IH]; intros Bp B; constructor;
    rewrite !bytes_app in B.
  - tauto.
  - apply IH; tauto.
  - rewrite bytes_app. split; [apply bytes_ztake; exact Bp | tauto].
  - apply IH; [|tauto]. rewrite bytes_app. split; [apply bytes_ztake; exact Bp | tauto].
Qed.

Lemma u64_small x : 0 <= x < 2 ^ 64 -> u64 x = x.
Proof. intros. apply Z.mod_small. assumption. Qed.
Lemma short_bound e : short e -> 0 <= zlen e < 2 ^ 62.
Proof. unfold short. pose proof (zlen_nonneg e). lia. Qed.

(** ** size() *)
Lemma size_loop_ok enc : bytes enc -> forall fuel p prev es size, 0 <= p <= zlen enc -> encodes prev (zdrop p enc) es ->
  Forall short es -> (length es < fuel)%nat -> size_loop fuel enc p size (zlen prev) = Some (size + zlen es).
Proof.
  intros B; induction fuel as [|fuel IH]; intros p prev es size Hp H Sh F; [lia|].
  cbn [size_loop]. destruct es as [|e es].
  - rewrite (encodes_end _ _ _ Hp H), Z.eqb_refl. change (zlen (@nil (list Z))) with 0. f_equal; lia.
  - destruct (encodes_head _ _ _ _ _ B Hp H) as [N Hd].
    destruct (Z.eqb_spec p (zlen enc)) as [Ep0|_]; [contradiction|].
    inversion Sh as [|x y Se Ses]; subst x y. apply short_bound in Se. cbn [length] in F.
    destruct Hd as [q u R Hq Hu Hb Le Sl H' | q r n u R Rs Hq Hr Hn Hu Hb Le Ee H']; rewrite R.
    + destruct (tag_even u) as [-> ->]. rewrite guard_true by lia. rewrite Z.add_0_l, u64_small, <- Le by lia.
      rewrite IH with (es := es); [rewrite zlen_cons; f_equal; lia | lia | rewrite Le; exact H' | exact Ses | lia].
    + destruct (tag_odd u) as [-> ->]. rewrite Rs, guard_true by lia. rewrite guard_true by lia.
      rewrite (u64_small (n - 1 + 1)) by lia. rewrite u64_small by lia. replace (n - 1 + 1 + u) with (zlen e) by lia.
      rewrite IH with (es := es); [rewrite zlen_cons; f_equal; lia | lia | exact H' | exact Ses | lia].
Qed.
Lemma encodes_fuel prev enc es : encodes prev enc es -> (length es <= length enc)%nat.
Proof. intros H. apply encodes_count in H. unfold zlen in H. lia. Qed.
Lemma Set_size_ok enc es : bytes enc -> set_encoding enc es -> Forall short es -> Set_size enc = Some (zlen es).
Proof.
  intros B H Sh. unfold Set_size. change 0 with (zlen (@nil Z)) at 3.
  rewrite (size_loop_ok enc B _ 0 [] es 0); [reflexivity | pose proof (zlen_nonneg enc); lia | rewrite zdrop_nonpos by lia; exact H | exact Sh |].
  apply encodes_fuel in H. lia.
Qed.

(** ** first() *)
Lemma Set_first_ok enc e es : bytes enc -> set_encoding enc (e :: es) -> Set_first enc = Some e.
Proof.
  intros B H. pose proof (zlen_nonneg enc). unfold set_encoding in H.
  replace enc with (zdrop 0 enc) in H at 1 by (apply zdrop_nonpos; lia).
  destruct (encodes_head enc 0 [] e es B ltac:(lia) H) as [N Hd]. unfold Set_first, Set_empty.
  rewrite guard_true by lia.
  destruct Hd as [q u R Hq Hu Hb Le Sl H' | q r n u R Rs Hq Hr Hn Hu Hb Le Ee H'].
  - rewrite R. destruct (tag_even u) as [-> ->]. cbn [guard]. rewrite guard_true by lia. rewrite view_some by lia. f_equal. exact Sl.
  - change (zlen (@nil Z)) with 0 in Hn. lia.
Qed.

(** ** Iterator *)
Lemma resize_copy_ok s new_size used data : 0 <= used <= zlen s -> used + zlen data = new_size ->
  resize_copy s new_size used data = Some (ztake used s ++ data).
Proof. intros. apply guard_true. rewrite !andb_true_iff. lia. Qed.
Lemma view_inv m p n v : view m p n = Some v -> 0 <= p /\ 0 <= n /\ p + n <= zlen m /\ v = zslice p n m.
Proof.
  unfold view, guard. destruct ((0 <=? p) && (0 <=? n) && (p + n <=? zlen m)) eqn:E; [|discriminate].
  intros H; injection H as <-. rewrite !andb_true_iff in E. repeat split; lia.
Qed.
Lemma ztake_zslice {A} k p n (l : list A) : 0 <= k <= n -> ztake k (zslice p n l) = zslice p k l.
Proof. intros. unfold zslice. rewrite ztake_ztake. f_equal. lia. Qed.

Definition iter_at (enc : list Z) (it : iter) (p : Z) (e : list Z) : Prop :=
  it_cursor it = Some p /\ 0 <= p <= zlen enc /\ 0 <= it_length_if_unshared it /\ Iterator_get enc it = Some e.
Lemma iter_step enc it p prev e es : bytes enc -> iter_at enc it p prev -> encodes prev (zdrop p enc) (e :: es) -> short e ->
  exists it' p', Iterator_next enc it = Some it' /\ iter_at enc it' p' e /\ encodes e (zdrop p' enc) es.
Proof.
  intros B (Ci & Hp & Hl & G) H Se. apply short_bound in Se.
  destruct (encodes_head _ _ _ _ _ B Hp H) as [N Hd]. unfold Iterator_next, Iterator_get in *. rewrite Ci in *.
  destruct (Z.eqb_spec p (zlen enc)) as [Ep0|_]; [contradiction|].
  destruct Hd as [q u R Hq Hu Hb Le Sl H' | q r n0 u R Rs Hq Hr Hn Hu Hb Le Ee H']; rewrite R.
  - destruct (tag_even u) as [-> ->]. rewrite guard_true by lia. eexists; exists (q + u). split; [reflexivity|].
    split; [|exact H']. unfold iter_at, Iterator_get. cbn. repeat split; try lia.
    destruct (Z.ltb_spec 0 u).
    + rewrite view_some by lia. f_equal. replace (q + u - u) with q by lia. exact Sl.
    + f_equal. symmetry. apply zlen_0_nil. lia.
  - destruct (tag_odd u) as [-> ->]. rewrite Rs.
    assert (Lp : (if 0 <? it_length_if_unshared it then it_length_if_unshared it else zlen (it_current_if_shared it)) = zlen prev).
    { destruct (Z.ltb_spec 0 (it_length_if_unshared it)).
      - apply view_inv in G. destruct G as (? & ? & ? & ->). rewrite zlen_zslice by lia. reflexivity.
      - injection G as ->. reflexivity. }
    rewrite Lp. rewrite guard_true by lia. rewrite guard_true by lia.
    rewrite (u64_small (n0 - 1 + 1)) by lia. replace (n0 - 1 + 1) with n0 by lia. rewrite u64_small by lia.
    rewrite view_some by lia.
    assert (Q : (if 0 <? it_length_if_unshared it
                 then match view enc (p - it_length_if_unshared it) n0 with
                      | Some shared => resize_copy (it_current_if_shared it) (n0 + u) 0 (shared ++ zslice r u enc)
                      | None => None end
                 else resize_copy (it_current_if_shared it) (n0 + u) n0 (zslice r u enc)) = Some e).
    { rewrite Ee. destruct (Z.ltb_spec 0 (it_length_if_unshared it)).
      - apply view_inv in G. destruct G as (? & ? & ? & Ep).
        assert (zlen prev = it_length_if_unshared it) by (rewrite Ep, zlen_zslice by lia; reflexivity).
        rewrite view_some by lia. rewrite resize_copy_ok; [| pose proof (zlen_nonneg (it_current_if_shared it)); lia |].
        + rewrite (ztake_nonpos 0) by lia. cbn [app]. f_equal. f_equal. rewrite Ep, ztake_zslice by lia. reflexivity.
        + rewrite zlen_app, !zlen_zslice by lia. lia.
      - injection G as G. rewrite G. rewrite resize_copy_ok; [reflexivity | lia |]. rewrite zlen_zslice by lia. lia. }
    rewrite Q. eexists; exists (r + u). split; [reflexivity|]. split; [|exact H'].
    unfold iter_at, Iterator_get. cbn. repeat split; lia.
Qed.
Lemma iter_end enc it p prev : iter_at enc it p prev -> encodes prev (zdrop p enc) [] ->
  exists it', Iterator_next enc it = Some it' /\ it_cursor it' = None.
Proof.
  intros (Ci & Hp & _) H. apply encodes_end in H; [|lia]. unfold Iterator_next. rewrite Ci, H, Z.eqb_refl. eexists; split; reflexivity.
Qed.
Lemma iter_start enc : iter_at enc {| it_cursor := Some 0; it_length_if_unshared := 0; it_current_if_shared := [] |} 0 [].
Proof. unfold iter_at, Iterator_get. cbn. pose proof (zlen_nonneg enc). repeat split; lia. Qed.

Lemma iterate_ok enc : bytes enc -> forall es fuel it p prev, iter_at enc it p prev -> encodes prev (zdrop p enc) es ->
  Forall short es -> (S (length es) <= fuel)%nat -> iterate fuel enc it = Some (prev :: es).
Proof.
  intros B; induction es as [|e es IH]; intros fuel it p prev At H Sh F; (destruct fuel as [|fuel]; [lia|]);
    cbn [iterate]; pose proof At as (Ci & _ & _ & G); rewrite Ci, G.
  - destruct (iter_end _ _ _ _ At H) as (it' & -> & E). destruct fuel; cbn [iterate]; rewrite E; reflexivity.
  - inversion Sh as [|x y Se Ses]; subst x y. cbn [length] in F.
    destruct (iter_step _ _ _ _ _ _ B At H Se) as (it' & p' & -> & At' & H').
    rewrite (IH fuel it' p' e At' H' Ses) by lia. reflexivity.
Qed.
Lemma Set_elements_ok enc es : bytes enc -> set_encoding enc es -> Forall short es -> Set_elements enc = Some es.
Proof.
  intros B H Sh. unfold Set_elements, Iterator_begin. pose proof (encodes_fuel _ _ _ H) as F.
  unfold set_encoding in H. replace enc with (zdrop 0 enc) in H at 1 by (apply zdrop_nonpos; lia).
  destruct es as [|e es].
  - destruct (iter_end _ _ _ _ (iter_start enc) H) as (it' & -> & E). destruct (length enc); cbn [iterate]; rewrite E; reflexivity.
  - inversion Sh as [|x y Se Ses]; subst x y.
    destruct (iter_step _ _ _ _ _ _ B (iter_start enc) H Se) as (it' & p' & -> & At' & H').
    apply iterate_ok with p'; auto.
Qed.

(** ** SplitElementIterator *)
Definition siter_at (enc : list Z) (it : siter) (p : Z) (x : split) : Prop :=
  si_cursor it = Some p /\ 0 <= p <= zlen enc /\ SplitIterator_get enc it = Some x.
Lemma prefix_value_length enc it v : prefix_value enc it = Some v -> prefix_length (si_prefix it) = zlen v.
Proof.
  unfold prefix_value, prefix_length. destruct (si_prefix it); intros H; apply view_inv in H; destruct H as (? & ? & ? & ->);
    rewrite zlen_zslice; lia.
Qed.
(** [n] is the length of the prefix of the new element, which is shared with the previous element *)
Lemma siter_step enc it p x e es : bytes enc -> siter_at enc it p x -> encodes (Split_string x) (zdrop p enc) (e :: es) -> short e ->
  exists it' p' x' n, SplitIterator_next enc it = Some it' /\ siter_at enc it' p' x' /\ Split_string x' = e /\
    prefix x' = ztake n (Split_string x) /\ 0 <= n <= zlen (Split_string x) /\ encodes e (zdrop p' enc) es.
Proof.
  intros B (Ci & Hp & G) H Se. apply short_bound in Se.
  destruct (encodes_head _ _ _ _ _ B Hp H) as [N Hd]. unfold SplitIterator_next, SplitIterator_get in *. rewrite Ci in *.
  destruct (Z.eqb_spec p (zlen enc)) as [Ep0|_]; [contradiction|].
  destruct (prefix_value enc it) as [pv|] eqn:P; [|discriminate].
  destruct (view enc (p - si_suffix_length it) (si_suffix_length it)) as [sv|] eqn:V; [|discriminate].
  injection G as <-. pose proof (prefix_value_length _ _ _ P) as Lp.
  apply view_inv in V. destruct V as (V1 & V2 & V3 & Es).
  assert (Ls : zlen sv = si_suffix_length it) by (rewrite Es, zlen_zslice by lia; reflexivity).
  unfold Split_string in *. cbn [prefix suffix] in *.
  destruct Hd as [q u R Hq Hu Hb Le Sl H' | q r n0 u R Rs Hq Hr Hn Hu Hb Le Ee H']; rewrite R.
  - destruct (tag_even u) as [-> ->]. rewrite guard_true by lia. eexists; exists (q + u), {| prefix := []; suffix := e |}, 0.
    split; [reflexivity|]. pose proof (zlen_nonneg (pv ++ sv)). split; [|repeat split; auto; lia].
    unfold siter_at, SplitIterator_get, prefix_value. cbn. repeat split; try lia.
    rewrite !view_some by (pose proof (zlen_nonneg enc); lia). replace (q + u - u) with q by lia. rewrite Sl.
    unfold zslice. rewrite ztake_nonpos by lia. reflexivity.
  - destruct (tag_odd u) as [-> ->]. rewrite Rs. rewrite zlen_app in Hn. rewrite Lp. rewrite guard_true by lia.
    rewrite guard_true by lia. rewrite (u64_small (n0 - 1 + 1)) by lia. replace (n0 - 1 + 1) with n0 by lia.
    assert (Fin : forall it', si_cursor it' = Some (r + u) -> si_suffix_length it' = u ->
              prefix_value enc it' = Some (ztake n0 (pv ++ sv)) ->
              exists p' x' n, siter_at enc it' p' x' /\ prefix x' ++ suffix x' = e /\
                prefix x' = ztake n (pv ++ sv) /\ 0 <= n <= zlen (pv ++ sv) /\ encodes e (zdrop p' enc) es).
    { intros it' C' S' P'. exists (r + u), {| prefix := ztake n0 (pv ++ sv); suffix := zslice r u enc |}, n0.
      split; [|cbn [prefix suffix]; rewrite zlen_app; repeat split; auto; lia].
      unfold siter_at, SplitIterator_get. rewrite C', S', P'. repeat split; try lia. rewrite view_some by lia.
      repeat f_equal. lia. }
    destruct (Z.leb_spec n0 (zlen pv)) as [L1|L1].
    + eexists. destruct (Fin {| si_cursor := Some (r + u); si_stored := si_stored it;
                                si_prefix := match si_prefix it with InEncoded p _ => InEncoded p n0 | InStored _ => InStored n0 end;
                                si_suffix_length := u |}) as (p' & x' & n' & F); [reflexivity | reflexivity | |
        exists p', x', n'; split; [reflexivity | exact F]].
      rewrite ztake_app_l by lia. unfold prefix_value in P |- *. cbn [si_prefix si_stored].
      destruct (si_prefix it) as [pp pn | pn]; apply view_inv in P; destruct P as (? & ? & ? & E); cbn [prefix_length] in Lp;
        rewrite view_some, E, ztake_zslice by lia; reflexivity.
    + destruct (Z.eqb_spec (zlen pv) 0) as [L0|L0].
      * apply zlen_0_nil in L0. subst pv. cbn [app] in *. change (zlen (@nil Z)) with 0 in *.
        eexists. destruct (Fin {| si_cursor := Some (r + u); si_stored := si_stored it;
                                  si_prefix := InEncoded (p - si_suffix_length it) n0;
                                  si_suffix_length := u |}) as (p' & x' & n' & F); [reflexivity | reflexivity | |
          exists p', x', n'; split; [reflexivity | exact F]].
        unfold prefix_value. cbn [si_prefix]. rewrite view_some by lia. rewrite Es, ztake_zslice by lia. reflexivity.
      * rewrite view_some by lia.
        assert (Ea : pv ++ zslice (p - si_suffix_length it) (n0 - zlen pv) enc = ztake n0 (pv ++ sv)).
        { rewrite ztake_app_r by lia. f_equal. rewrite Es, ztake_zslice by lia. reflexivity. }
        assert (Q : match si_prefix it with
                    | InStored _ => resize_copy (si_stored it) n0 (zlen pv) (zslice (p - si_suffix_length it) (n0 - zlen pv) enc)
                    | InEncoded _ _ => match prefix_value enc it with
                                       | None => None
                                       | Some p0 => resize_copy (si_stored it) n0 0 (p0 ++ zslice (p - si_suffix_length it) (n0 - zlen pv) enc)
                                       end
                    end = Some (ztake n0 (pv ++ sv))).
        { rewrite P. unfold prefix_value in P. destruct (si_prefix it) as [pp pn | pn].
          - rewrite resize_copy_ok; [| pose proof (zlen_nonneg (si_stored it)); lia |].
            + rewrite (ztake_nonpos 0) by lia. cbn [app]. rewrite Ea. reflexivity.
            + rewrite zlen_app, zlen_zslice by lia. lia.
          - cbn [prefix_length] in Lp. apply view_inv in P. destruct P as (? & ? & ? & E). rewrite resize_copy_ok; [|lia|].
            + replace (ztake (zlen pv) (si_stored it)) with pv; [rewrite Ea; reflexivity|].
              rewrite E at 1. unfold zslice. rewrite (zdrop_nonpos 0) by lia. rewrite Lp. reflexivity.
            + rewrite zlen_zslice by lia. lia. }
        rewrite P in Q. rewrite Q.
        eexists. destruct (Fin {| si_cursor := Some (r + u); si_stored := ztake n0 (pv ++ sv); si_prefix := InStored n0;
                                  si_suffix_length := u |}) as (p' & x' & n' & F); [reflexivity | reflexivity | |
          exists p', x', n'; split; [reflexivity | exact F]].
        unfold prefix_value. cbn [si_prefix si_stored]. rewrite view_some; [| lia | lia | rewrite zlen_ztake, zlen_app; lia].
        f_equal. unfold zslice. rewrite (zdrop_nonpos 0) by lia. apply ztake_all. rewrite zlen_ztake. lia.
Qed.
Lemma siter_end enc it p x : siter_at enc it p x -> encodes (Split_string x) (zdrop p enc) [] ->
  exists it', SplitIterator_next enc it = Some it' /\ si_cursor it' = None.
Proof.
  intros (Ci & Hp & _) H. apply encodes_end in H; [|lia]. unfold SplitIterator_next. rewrite Ci, H, Z.eqb_refl. eexists; split; reflexivity.
Qed.
Definition empty_split : split := {| prefix := []; suffix := [] |}.
Lemma siter_start enc : siter_at enc {| si_cursor := Some 0; si_stored := []; si_prefix := no_prefix; si_suffix_length := 0 |} 0 empty_split.
Proof.
  unfold siter_at, SplitIterator_get, prefix_value. cbn. pose proof (zlen_nonneg enc). repeat split; try lia.
  rewrite view_some by lia. reflexivity.
Qed.
Lemma set_encoding_at enc es : set_encoding enc es -> encodes (Split_string empty_split) (zdrop 0 enc) es.
Proof. intros H. rewrite zdrop_nonpos by lia. exact H. Qed.
