(** Transposing records into columns loses nothing: handling the tags from the last to the first restores the records. *)
From Verif Require Import Base.Bytes Model.Endian Model.Varint Model.Chunk Model.SimpleChunk Model.TransposeEncoder Model.TransposeDecoder.
From Coq Require Import Permutation.
From Verif Require Import Spec.VarintSpec Proof.VarintProof.

(** ** Varints *)
Lemma is_varint_inv l : is_varint l -> (exists b, l = [b] /\ 0 <= b < 128) \/ (exists x l', l = x :: l' /\ 128 <= x < 256 /\ is_varint l').
Proof.
  intros (init & b & -> & Hb & Hi). destruct init as [|x init].
  - left; exists b; auto.
  - right; exists x, (init ++ [b]). inversion Hi as [|? ? H1 H2]; subst. split; [reflexivity|]. split; [assumption|].
    exists init, b; auto.
Qed.
Lemma is_varint_last0 l : is_varint l -> base128 l = 0 -> last l 0 = 0.
Proof.
  induction l as [|x l IH]; intros H E; [reflexivity|].
  destruct (is_varint_inv _ H) as [(b & E1 & Hb)|(y & l' & E1 & Hy & Hl)].
  - injection E1 as -> ->. cbn [base128] in E. rewrite Z.mod_small in E by lia. cbn [last]. lia.
  - injection E1 as -> ->. cbn [base128] in E. pose proof (base128_bound l') as B.
    pose proof (Z.mod_pos_bound y 128 ltac:(lia)). destruct l' as [|z l']; [destruct (is_varint_inv _ Hl) as [(b & E2 & _)|(q & q' & E2 & _)]; discriminate|].
    change (last (z :: l') 0 = 0). apply IH; [assumption|lia].
Qed.
Lemma shortest_unique a : forall b, is_varint a -> is_varint b -> is_shortest a -> is_shortest b -> base128 a = base128 b -> a = b.
Proof.
  assert (T : forall x l, is_varint l -> is_shortest (x :: l) -> is_shortest l /\ base128 l <> 0).
  { intros x l Hl [Hs|Hs].
    - destruct l; [|cbn [length] in Hs; lia]. destruct (is_varint_inv _ Hl) as [(b & E & _)|(q & q' & E & _)]; discriminate.
    - assert (L : last l 0 <> 0) by (destruct l; [cbn in Hs; destruct (is_varint_inv _ Hl) as [(b & E & _)|(q & q' & E & _)]; discriminate|exact Hs]).
      split; [right; exact L|]. intros E. apply L, is_varint_last0; assumption. }
  induction a as [|x a IH]; intros b Ha Hb Sa Sb E.
  { destruct (is_varint_inv _ Ha) as [(c & E1 & _)|(q & q' & E1 & _)]; discriminate. }
  destruct (is_varint_inv _ Ha) as [(c & E1 & Hc)|(y & a' & E1 & Hy & Ha')]; injection E1 as -> ->;
    (destruct (is_varint_inv _ Hb) as [(d & -> & Hd)|(z & b' & -> & Hz & Hb')]); cbn [base128] in E.
  - rewrite !Z.mod_small in E by lia. f_equal; lia.
  - rewrite (Z.mod_small c) in E by lia. pose proof (base128_bound b'). pose proof (Z.mod_pos_bound z 128 ltac:(lia)).
    destruct (T _ _ Hb' Sb) as [_ N]. lia.
  - rewrite (Z.mod_small d) in E by lia. pose proof (base128_bound a'). pose proof (Z.mod_pos_bound y 128 ltac:(lia)).
    destruct (T _ _ Ha' Sa) as [_ N]. lia.
  - pose proof (Z.mod_pos_bound y 128 ltac:(lia)). pose proof (Z.mod_pos_bound z 128 ltac:(lia)).
    assert (y = z) by (Z.div_mod_to_equations; lia). subst z. f_equal.
    apply IH; try assumption; [apply (T _ _ Ha' Sa)|apply (T _ _ Hb' Sb)|lia].
Qed.
Lemma canonical32 l v rest : bytes l -> ReadCanonicalVarint V32 l = Some (v, rest) ->
  l = WriteVarint V32 v ++ rest /\ 0 <= v < 2 ^ 32 /\ ReadVarint V32 l = Some (v, rest) /\ bytes rest.
Proof.
  intros Hb. unfold ReadCanonicalVarint. rewrite ReadVarintArray_spec by (try assumption; apply V32_ok).
  destruct (spec_read V32 true l) as [| |v' n] eqn:E; try discriminate.
  apply spec_read_iff in E; [|apply V32_ok|assumption]. destruct E as (a & r & -> & Hv & <- & Hn & -> & Hlt & Hs).
  rewrite skipn_app_exact. intros EE; injection EE as <- <-.
  pose proof (base128_bound a) as B. change (2 ^ vbits V32) with (2 ^ 32) in Hlt.
  destruct (WriteVarint_spec V32 (base128 a) V32_ok) as (W1 & W2 & W3 & W4 & _); [cbn [vbits V32]; lia|].
  assert (a = WriteVarint V32 (base128 a)) as W by (apply shortest_unique; auto).
  apply bytes_app in Hb. destruct Hb as [Hb1 Hb2].
  split; [f_equal; exact W|]. split; [lia|]. split; [|exact Hb2].
  rewrite W at 1. apply ReadVarint_Write; [apply V32_ok|cbn [vbits V32]; lia|exact Hb2].
Qed.
Lemma WriteVarint_nonempty t v : WriteVarint t v <> [].
Proof. unfold WriteVarint. destruct (v <? 128); [discriminate|]. destruct (vmax t); discriminate. Qed.
Lemma WriteVarint_pos t v : 1 <= zlen (WriteVarint t v).
Proof. destruct (WriteVarint t v) eqn:E; [exfalso; eapply WriteVarint_nonempty, E|]. rewrite zlen_cons. pose proof (zlen_nonneg l). lia. Qed.
Lemma Read32_Write64 v rest : 0 <= v < 2 ^ 32 -> bytes rest -> ReadVarint V32 (WriteVarint V64 v ++ rest) = Some (v, rest).
Proof.
  intros Hv Hr. destruct (WriteVarint_spec V64 v V64_ok) as (W1 & W2 & W3 & W4 & W5); [cbn [vbits V64]; lia|].
  assert (Hb : bytes (WriteVarint V64 v ++ rest)) by (apply bytes_app; split; [apply is_varint_bytes|]; assumption).
  unfold ReadVarint. rewrite ReadVarintArray_spec by (try assumption; apply V32_ok).
  assert (E : spec_read V32 false (WriteVarint V64 v ++ rest) = VOk v (length (WriteVarint V64 v))).
  { apply spec_read_iff; [apply V32_ok|assumption|]. exists (WriteVarint V64 v), rest.
    split; [reflexivity|]. split; [assumption|]. split; [reflexivity|]. split; [|split; [auto|split; [cbn [vbits V32]; lia|discriminate]]].
    change (vmax V32) with 5%nat. destruct W5 as [[W5 _]|W5]; [lia|]. destruct (Nat.le_gt_cases (length (WriteVarint V64 v)) 5) as [Q|Q]; [assumption|exfalso].
    assert (128 ^ 5 <= 128 ^ Z.of_nat (length (WriteVarint V64 v) - 1)) by (apply Z.pow_le_mono_r; lia). lia. }
  rewrite E, skipn_app_exact. reflexivity.
Qed.

Lemma MaskBuffer_cont init b : Forall cont init -> 0 <= b < 128 -> MaskBuffer (map (fun byte => Z.land byte 127) (init ++ [b])) = init ++ [b].
Proof.
  assert (L : forall x, Z.land x 127 = x mod 128) by (intros x; apply (land_ones_mod x 7); lia).
  induction init as [|x init IH]; intros Hi Hb; cbn [app map].
  - cbn [MaskBuffer]. rewrite L, Z.mod_small by lia. reflexivity.
  - inversion Hi as [|? ? H1 H2]; subst. specialize (IH H2 Hb).
    destruct (map (fun byte => Z.land byte 127) (init ++ [b])) as [|y l] eqn:E; [destruct init; discriminate|].
    change (Z.lor (Z.land x 127) 128 :: MaskBuffer (y :: l) = x :: init ++ [b]). rewrite IH. f_equal.
    rewrite L. red in H1. replace (x mod 128) with (x - 128) by (Z.div_mod_to_equations; lia).
    rewrite (lor_disjoint_add (x - 128) 128 7) by (try reflexivity; lia). lia.
Qed.
(** A canonical varint64, as skipped *)
Lemma skip64 l n : bytes l -> SkipVarintArray V64 true l = S n ->
  SkipVarintArray V64 false l = S n /\
  exists init b, l = (init ++ [b]) ++ skipn (S n) l /\ firstn (S n) l = init ++ [b] /\ length init = n /\ Forall cont init /\ 0 <= b < 128 /\ (n < 10)%nat.
Proof.
  intros Hb. rewrite !SkipVarintArray_spec, !ReadVarintArray_spec by (try assumption; apply V64_ok).
  destruct (spec_read V64 true l) as [| |v' m] eqn:E; try discriminate. intros ->.
  apply spec_read_iff in E; [|apply V64_ok|assumption]. destruct E as (a & r & El & Hv & Hl & Hn & Hva & Hlt & Hs).
  assert (E2 : spec_read V64 false l = VOk v' (S n)).
  { apply spec_read_iff; [apply V64_ok|assumption|]. exists a, r. repeat (split; [assumption|]). discriminate. }
  rewrite E2. split; [reflexivity|]. destruct Hv as (init & b & Ea & Hbb & Hi). exists init, b.
  change (vmax V64) with 10%nat in Hn. subst l. rewrite <- Hl at 1. rewrite <- Ea, skipn_app_exact. split; [reflexivity|].
  rewrite <- Hl, firstn_app_exact. split; [reflexivity|]. rewrite Ea, app_length in Hl. cbn [length] in Hl.
  split; [lia|]. split; [exact Hi|]. split; [lia|lia].
Qed.

(** ** Columns *)
Lemma node_eqb_eq a b : node_eqb a b = true <-> a = b.
Proof.
  unfold node_eqb. destruct a as [a1 a2], b as [b1 b2]; cbn [fst snd]. rewrite andb_true_iff, !Z.eqb_eq.
  split; [intros [-> ->]; reflexivity|intros E; injection E; auto].
Qed.
Lemma node_eqb_refl a : node_eqb a a = true.
Proof. apply node_eqb_eq; reflexivity. Qed.
Lemma tag_eqb_eq a b : tag_eqb a b = true <-> a = b.
Proof.
  unfold tag_eqb. destruct a as [a1 a2], b as [b1 b2]; cbn [fst snd]. rewrite andb_true_iff, node_eqb_eq, Z.eqb_eq.
  split; [intros [-> ->]; reflexivity|intros E; injection E; auto].
Qed.
Lemma find_index_some {A} (f : A -> bool) l i : find_index f l = Some i ->
  exists x, nth_error l i = Some x /\ f x = true /\ (i < length l)%nat.
Proof.
  revert i; induction l as [|y l IH]; intros i; cbn [find_index]; [discriminate|].
  destruct (f y) eqn:F; [intros E; injection E as <-; exists y; cbn [nth_error length]; repeat split; auto; lia|].
  destruct (find_index f l) as [j|] eqn:E; [|discriminate]. intros EE; injection EE as <-.
  destruct (IH j eq_refl) as (x & H1 & H2 & H3). exists x. cbn [nth_error length]. repeat split; auto; lia.
Qed.
Lemma find_index_none {A} (f : A -> bool) l : find_index f l = None -> forall x, In x l -> f x = false.
Proof.
  induction l as [|y l IH]; cbn [find_index]; [intros _ x []|].
  destruct (f y) eqn:F; [discriminate|]. destruct (find_index f l); [discriminate|].
  intros _ x [<-|H]; [assumption|apply IH; auto].
Qed.
Definition entry0 : node_id * Z := ((0, 0), 0).
Definition entries (c : columns) : list (node_id * Z) := map (fun i => nth i (c_tags c) entry0) (c_encoded c).
Definition nodes (c : columns) : list node_id := map b_node (c_buffers c).
Definition good_tag (e : node_id * Z) : Prop :=
  let '((parent, tag), st) := e in
  (tag = 0 /\ st = 0 /\ (parent = kNonProto \/ parent = kStartOfMessage)) \/
  (8 <= tag < 2 ^ 32 /\
   ((tag mod 8 = 0 /\ 0 <= st <= 13) \/ ((tag mod 8 = 1 \/ tag mod 8 = 3 \/ tag mod 8 = 4 \/ tag mod 8 = 5) /\ st = 0) \/
    (tag mod 8 = 2 /\ 0 <= st <= 2))).
Definition needs_buffer (e : node_id * Z) : Prop :=
  let '((parent, tag), st) := e in
  (tag = 0 /\ parent = kNonProto) \/
  (tag <> 0 /\ ((tag mod 8 = 0 /\ st < 10) \/ tag mod 8 = 1 \/ tag mod 8 = 5 \/ (tag mod 8 = 2 /\ st = 0))).
Record wf (c : columns) : Prop := {
  wf_enc : Forall (fun i => (i < length (c_tags c))%nat) (c_encoded c);
  wf_tags : Forall good_tag (c_tags c);
  wf_buf : Forall (fun e => needs_buffer e -> In (fst e) (nodes c)) (c_tags c);
  wf_nodup : NoDup (nodes c);
  wf_data : Forall (fun b => 0 <= b_type b <= 4 /\ b_data b <> [] /\ bytes (b_data b)) (c_buffers c);
  wf_len : bytes (c_lengths c);
  wf_nonproto : In (kNonProto, 0) (map fst (c_tags c)) -> c_lengths c <> [] }.

Definition extends (c c' : columns) : Prop := exists ext, c_tags c' = c_tags c ++ ext.
Lemma extends_refl c : extends c c.
Proof. exists []; rewrite app_nil_r; reflexivity. Qed.
Lemma extends_trans a b c : extends a b -> extends b c -> extends a c.
Proof. intros [x Hx] [y Hy]. exists (x ++ y). rewrite Hy, Hx, app_assoc. reflexivity. Qed.
Lemma extends_nth c c' i e : extends c c' -> nth_error (c_tags c) i = Some e -> nth_error (c_tags c') i = Some e.
Proof. intros [x ->] H. rewrite nth_error_app1; [assumption|]. apply nth_error_Some. rewrite H; discriminate. Qed.

Lemma GetNode_spec id c m c' : GetNode id c = (m, c') ->
  c_tags c' = c_tags c /\ c_encoded c' = c_encoded c /\ c_buffers c' = c_buffers c /\ c_lengths c' = c_lengths c.
Proof.
  unfold GetNode. destruct (find_index (node_eqb id) (c_nodes c)); intros E; injection E as <- <-; repeat split; reflexivity.
Qed.
Lemma GetPos_spec id st c pos c' : GetPosInTagsList id st c = (pos, c') ->
  c_encoded c' = c_encoded c /\ c_buffers c' = c_buffers c /\ c_lengths c' = c_lengths c /\
  nth_error (c_tags c') pos = Some (id, st) /\ (c_tags c' = c_tags c \/ c_tags c' = c_tags c ++ [(id, st)]).
Proof.
  unfold GetPosInTagsList. destruct (find_index (tag_eqb (id, st)) (c_tags c)) as [i|] eqn:F; intros E; injection E as <- <-;
    cbn [c_encoded c_buffers c_lengths c_tags].
  - destruct (find_index_some _ _ _ F) as (x & H1 & H2 & _). apply tag_eqb_eq in H2. subst x. repeat split; auto.
  - repeat split; auto. rewrite nth_error_app2, Nat.sub_diag by lia. reflexivity.
Qed.
Lemma push_tag_spec id st c :
  let c' := push_tag id st c in
  c_buffers c' = c_buffers c /\ c_lengths c' = c_lengths c /\
  (exists pos, c_encoded c' = c_encoded c ++ [pos] /\ nth_error (c_tags c') pos = Some (id, st)) /\
  (c_tags c' = c_tags c \/ c_tags c' = c_tags c ++ [(id, st)]).
Proof.
  cbn zeta. unfold push_tag. destruct (GetPosInTagsList id st c) as [pos c1] eqn:E. apply GetPos_spec in E.
  destruct E as (E1 & E2 & E3 & E4 & E5). unfold push_pos; cbn [c_encoded c_buffers c_lengths c_tags].
  rewrite E1, E2, E3. repeat split; auto. exists pos; auto.
Qed.
Lemma entries_app c c' pos e : wf c -> extends c c' -> c_encoded c' = c_encoded c ++ [pos] -> nth_error (c_tags c') pos = Some e ->
  entries c' = entries c ++ [e].
Proof.
  intros W [x X] E N. unfold entries. rewrite E, map_app. cbn [map]. f_equal.
  - pose proof (wf_enc c W) as F. apply map_ext_in. intros i Hi. rewrite Forall_forall in F. rewrite X, app_nth1 by (apply F, Hi). reflexivity.
  - f_equal. apply nth_error_nth, N.
Qed.
Lemma or_extends c c' e : c_tags c' = c_tags c \/ c_tags c' = c_tags c ++ [e] -> extends c c'.
Proof. unfold extends. intros [->| ->]; [exists []; rewrite app_nil_r; reflexivity|exists [e]; reflexivity]. Qed.
Lemma wf_GetNode id c m c' : GetNode id c = (m, c') -> wf c -> wf c'.
Proof.
  intros E W. apply GetNode_spec in E. destruct E as (E1 & E2 & E3 & E4). destruct W as [W1 W2 W3 W4 W5 W6 W7].
  unfold nodes in *. constructor; unfold nodes; rewrite ?E1, ?E2, ?E3, ?E4; assumption.
Qed.
Lemma wf_GetPos id st c pos c' : GetPosInTagsList id st c = (pos, c') -> good_tag (id, st) -> ~ needs_buffer (id, st) -> wf c -> wf c'.
Proof.
  intros E G N W. apply GetPos_spec in E. destruct E as (E1 & E2 & E3 & _ & E5). destruct W as [W1 W2 W3 W4 W5 W6 W7].
  unfold nodes in *. constructor; unfold nodes; rewrite ?E1, ?E2, ?E3; try assumption; destruct E5 as [->| ->]; try assumption.
  - rewrite app_length. eapply Forall_impl; [|exact W1]. cbv beta. intros; lia.
  - apply Forall_app; split; [assumption|constructor; [assumption|constructor]].
  - apply Forall_app; split; [assumption|constructor; [intros H; contradiction|constructor]].
  - rewrite map_app, in_app_iff. intros [H|[H|[]]]; [auto|]. cbn [fst] in H. subst id. exfalso. apply N. left. split; reflexivity.
Qed.
Lemma wf_push_pos pos e c : nth_error (c_tags c) pos = Some e -> wf c -> wf (push_pos pos c).
Proof.
  intros N W. destruct W as [W1 W2 W3 W4 W5 W6 W7]. constructor; try assumption. unfold push_pos; cbn [c_encoded c_tags].
  apply Forall_app; split; [assumption|constructor; [|constructor]]. apply nth_error_Some. rewrite N; discriminate.
Qed.
Lemma wf_push_tag id st c : good_tag (id, st) -> ~ needs_buffer (id, st) -> wf c -> wf (push_tag id st c).
Proof.
  intros G N W. unfold push_tag. destruct (GetPosInTagsList id st c) as [pos c1] eqn:E.
  apply wf_push_pos with (e := (id, st)); [apply GetPos_spec in E; tauto|]. eapply wf_GetPos; eassumption.
Qed.
Lemma prepend_nodes type id data l :
  (In id (map b_node l) /\ map b_node (prepend_to type id data l) = map b_node l) \/
  (~ In id (map b_node l) /\ map b_node (prepend_to type id data l) = map b_node l ++ [id]).
Proof.
  induction l as [|b l IH]; cbn [prepend_to map]; [right; split; [intros []|reflexivity]|].
  destruct (node_eqb (b_node b) id) eqn:E.
  - apply node_eqb_eq in E. subst id. left. cbn [map b_node]. split; [left; reflexivity|reflexivity].
  - assert (b_node b <> id) by (intros H; apply node_eqb_eq in H; congruence). cbn [map In].
    destruct IH as [[H1 H2]|[H1 H2]]; rewrite H2; [left|right]; (split; [tauto|reflexivity]).
Qed.
Lemma prepend_forall (Q : buffer -> Prop) type id data l :
  (forall b, Q b -> b_node b = id -> Q {| b_type := b_type b; b_node := b_node b; b_data := data ++ b_data b |}) ->
  Q {| b_type := type; b_node := id; b_data := data |} -> Forall Q l -> Forall Q (prepend_to type id data l).
Proof.
  intros H1 H2. induction 1 as [|b l Hb Hl IH]; cbn [prepend_to]; [constructor; [assumption|constructor]|].
  destruct (node_eqb (b_node b) id) eqn:E; constructor; auto. apply H1; [assumption|]. apply node_eqb_eq, E.
Qed.
Lemma wf_field type id st data c : good_tag (id, st) -> snd id <> 0 \/ c_lengths c <> [] -> 0 <= type <= 4 -> data <> [] -> bytes data -> wf c ->
  wf (write_data type id data (push_tag id st c)).
Proof.
  intros G NZ Ht Hd Hb W. pose proof (push_tag_spec id st c) as P. cbn zeta in P.
  destruct P as (P1 & P2 & (pos & P3 & P4) & P5). destruct W as [W1 W2 W3 W4 W5 W6 W7].
  assert (ND := prepend_nodes type id data (c_buffers c)). unfold nodes in *.
  constructor; unfold nodes, write_data; cbn [c_tags c_encoded c_buffers c_lengths]; rewrite ?P1, ?P2.
  - rewrite P3. apply Forall_app; split.
    + eapply Forall_impl; [|exact W1]. cbv beta. intros i Hi. destruct P5 as [->| ->]; [assumption|rewrite app_length; lia].
    + constructor; [|constructor]. apply nth_error_Some. rewrite P4. discriminate.
  - destruct P5 as [->| ->]; [assumption|]. apply Forall_app; split; [assumption|constructor; [assumption|constructor]].
  - assert (I1 : forall x, In x (map b_node (c_buffers c)) \/ x = id -> In x (map b_node (prepend_to type id data (c_buffers c)))).
    { intros x Hx. destruct ND as [[N1 ->]|[N1 ->]]; [destruct Hx as [Hx| ->]; assumption|]. apply in_or_app. cbn [In]. destruct Hx as [Hx| ->]; auto. }
    assert (F1 : Forall (fun e => needs_buffer e -> In (fst e) (map b_node (prepend_to type id data (c_buffers c)))) (c_tags c)).
    { eapply Forall_impl; [|exact W3]. cbv beta. intros e He Hn. apply I1. left. auto. }
    destruct P5 as [->| ->]; [assumption|]. apply Forall_app; split; [assumption|]. constructor; [|constructor]. intros _. apply I1. right. reflexivity.
  - destruct ND as [[N1 ->]|[N1 ->]]; [assumption|]. apply (Permutation_NoDup (l := id :: map b_node (c_buffers c))); [apply Permutation_cons_append|constructor; assumption].
  - apply prepend_forall; [|cbn [b_type b_data]; auto|exact W5].
    intros b (B1 & B2 & B3) _. cbn [b_type b_data]. split; [assumption|]. split; [destruct data; [contradiction|discriminate]|]. apply bytes_app; auto.
  - assumption.
  - destruct P5 as [->| ->]; [exact W7|]. rewrite map_app, in_app_iff. intros [H|[H|[]]]; [auto|]. cbn [fst] in H. subst id.
    destruct NZ as [NZ|NZ]; [exfalso; apply NZ; reflexivity|exact NZ].
Qed.

(** ** Restoring *)
Definition data_of (id : node_id) (l : list buffer) : list Z :=
  match find (fun b => node_eqb (b_node b) id) l with Some b => b_data b | None => [] end.
Lemma data_of_prepend type id data l : data_of id (prepend_to type id data l) = data ++ data_of id l.
Proof.
  unfold data_of. induction l as [|b l IH]; cbn [prepend_to find].
  - cbn [find b_node b_data]. rewrite node_eqb_refl, app_nil_r. reflexivity.
  - destruct (node_eqb (b_node b) id) eqn:E; cbn [find b_node b_data]; rewrite E; [reflexivity|exact IH].
Qed.
Lemma data_of_other type id data id' l : id' <> id -> data_of id' (prepend_to type id data l) = data_of id' l.
Proof.
  intros N. unfold data_of. induction l as [|b l IH]; cbn [prepend_to find].
  - cbn [find b_node b_data]. destruct (node_eqb id id') eqn:E; [apply node_eqb_eq in E; congruence|reflexivity].
  - destruct (node_eqb (b_node b) id) eqn:E; cbn [find b_node b_data].
    + destruct (node_eqb (b_node b) id') eqn:E'; [|reflexivity]. apply node_eqb_eq in E, E'. congruence.
    + destruct (node_eqb (b_node b) id'); [reflexivity|exact IH].
Qed.
Lemma data_of_bytes id l : Forall (fun b => 0 <= b_type b <= 4 /\ b_data b <> [] /\ bytes (b_data b)) l -> bytes (data_of id l).
Proof.
  intros F. unfold data_of. destruct (find (fun b => node_eqb (b_node b) id) l) as [b|] eqn:E; [|constructor].
  apply find_some in E. rewrite Forall_forall in F. apply F, E.
Qed.
Lemma update_map (A B : Type) (eqb : A -> bool) (f f' : A -> B) (g : B -> B) x rest : (forall y, eqb y = true <-> y = x) ->
  forall ids i, find_index eqb ids = Some i -> NoDup ids -> (forall y, y <> x -> f' y = f y) -> g (f' x) = f x ->
  nth_error (map f' ids ++ rest) i = Some (f' x) /\ update i g (map f' ids ++ rest) = Some (map f ids ++ rest).
Proof.
  intros Heq. induction ids as [|y ids IH]; cbn [find_index]; [discriminate|]. intros i E ND H1 H2. inversion ND as [|? ? N1 N2]; subst.
  destruct (eqb y) eqn:Q.
  - injection E as <-. apply Heq in Q. subst y. cbn [map app nth_error update]. split; [reflexivity|]. rewrite H2. do 3 f_equal.
    apply map_ext_in. intros z Hz. apply H1. intros ->. contradiction.
  - destruct (find_index eqb ids) as [j|]; [|discriminate]. injection E as <-. cbn [map app nth_error update].
    destruct (IH j eq_refl N2 H1 H2) as [I1 I2]. rewrite I2. split; [exact I1|]. rewrite (H1 y); [reflexivity|].
    intros ->. assert (eqb x = true) by (apply Heq; reflexivity). congruence.
Qed.
Lemma find_index_in (id : node_id) ids : In id ids -> exists i, find_index (node_eqb id) ids = Some i.
Proof.
  intros H. destruct (find_index (node_eqb id) ids) as [i|] eqn:E; [exists i; reflexivity|].
  pose proof (find_index_none _ _ E id H) as F. rewrite node_eqb_refl in F. discriminate.
Qed.
Lemma node_eqb_iff id : forall y, node_eqb id y = true <-> y = id.
Proof. intros y. rewrite node_eqb_eq. split; auto. Qed.

(** The callback for a tag: [ids] are the nodes of the buffers *)
Definition index_of (ids : list node_id) (id : node_id) : nat := match find_index (node_eqb id) ids with Some i => i | None => O end.
Definition entry_callback (ids : list node_id) (e : node_id * Z) : callback :=
  let '((parent, tag), st) := e in
  if tag =? 0 then if parent =? kNonProto then CNonProto (index_of ids (parent, tag)) else CMessageStart
  else if (GetTagWireType tag =? wLengthDelimited) && (st =? kLengthDelimitedStartOfSubmessage) then CSubmessageStart
  else
    match GetCallbackType tag st (match HasDataBuffer tag st with Some true => index_of ids (parent, tag) | _ => O end) with
    | Some c => c
    | None => CFailure
    end.

Section Restoring.
Variable ids : list node_id.
Hypothesis ids_unique : NoDup ids.
Variable hl : bool.
Variables num_records max_size : Z.
Definition bufs_of (c : columns) : list (list Z) := map (fun id => data_of id (c_buffers c)) ids ++ (if hl then [c_lengths c] else []).
Definition lens : option nat := if hl then Some (length ids) else None.
Definition fits (c : columns) : Prop := incl (nodes c) ids /\ (c_lengths c <> [] -> hl = true).
Definition handle (e : node_id * Z) (g : decoding) : option decoding := HandleNode num_records max_size lens (entry_callback ids e) g.
Fixpoint run (l : list (node_id * Z)) (g : decoding) : option decoding :=
  match l with [] => Some g | e :: l => match handle e g with None => None | Some g => run l g end end.
Definition at_end (T : Z) (frames : list (Z * Z)) : list (Z * list Z) := map (fun te : Z * Z => (T - snd te, WriteVarint V32 (fst te))) frames.
Definition Inv (c : columns) (P : list Z) (frames : list (Z * Z)) (starts : list Z) : Prop :=
  fits c -> forall D L, bytes D -> zlen P + zlen D <= max_size -> zlen L + zlen starts <= num_records ->
  run (rev (entries c)) {| g_buffers := bufs_of c; g_dest := D; g_stack := at_end (zlen P + zlen D) frames; g_limits := L |} =
  Some {| g_buffers := bufs_of no_columns; g_dest := P ++ D; g_stack := [];
          g_limits := map (fun s => zlen P + zlen D - s) starts ++ L |}.

Lemma Inv_start : Inv no_columns [] [] [].
Proof. intros F D L _ _ _. cbn. reflexivity. Qed.
Lemma Inv_same c c' P frames starts : c_tags c' = c_tags c -> c_encoded c' = c_encoded c -> c_buffers c' = c_buffers c -> c_lengths c' = c_lengths c ->
  Inv c P frames starts -> Inv c' P frames starts.
Proof. intros E1 E2 E3 E4. unfold Inv, fits, nodes, entries, bufs_of. rewrite E1, E2, E3, E4. auto. Qed.
Lemma Inv_step c c' e P new frames frames' starts starts' :
  entries c' = entries c ++ [e] -> (fits c' -> fits c) -> bytes new ->
  (fits c' -> forall D L, bytes D -> zlen (P ++ new) + zlen D <= max_size -> zlen L + zlen starts' <= num_records ->
     exists Q, starts' = starts ++ Q /\
     handle e {| g_buffers := bufs_of c'; g_dest := D; g_stack := at_end (zlen (P ++ new) + zlen D) frames'; g_limits := L |} =
     Some {| g_buffers := bufs_of c; g_dest := new ++ D; g_stack := at_end (zlen (P ++ new) + zlen D) frames;
             g_limits := map (fun s => zlen (P ++ new) + zlen D - s) Q ++ L |}) ->
  Inv c P frames starts -> Inv c' (P ++ new) frames' starts'.
Proof.
  intros E F Bn H I0 F' D L HB HD HL. rewrite E, rev_app_distr. cbn [rev app run].
  destruct (H F' D L HB HD HL) as (Q & -> & ->). rewrite zlen_app in *.
  replace (zlen P + zlen new + zlen D) with (zlen P + zlen (new ++ D)) in * by (rewrite zlen_app; lia).
  rewrite (I0 (F F')); [|apply bytes_app; auto|lia|rewrite !zlen_app, zlen_map in *; lia].
  rewrite map_app, <- !app_assoc. reflexivity.
Qed.

(** Reading what was written last to the buffer of [id] *)
Lemma bufs_tags c c' : c_buffers c' = c_buffers c -> c_lengths c' = c_lengths c -> bufs_of c' = bufs_of c.
Proof. intros E1 E2. unfold bufs_of. rewrite E1, E2. reflexivity. Qed.
Lemma bufs_write type id data c : In id ids ->
  nth_error (bufs_of (write_data type id data c)) (index_of ids id) = Some (data ++ data_of id (c_buffers c)) /\
  update (index_of ids id) (zdrop (zlen data)) (bufs_of (write_data type id data c)) = Some (bufs_of c).
Proof.
  intros H. destruct (find_index_in id ids H) as [i E]. unfold index_of. rewrite E. unfold bufs_of, write_data; cbn [c_buffers c_lengths].
  rewrite <- (data_of_prepend type id data).
  apply (update_map node_id (list Z) (node_eqb id) (fun id => data_of id (c_buffers c))
           (fun id' => data_of id' (prepend_to type id data (c_buffers c))) (zdrop (zlen data)) id); try assumption.
  - apply node_eqb_iff.
  - intros y N. apply data_of_other, N.
  - rewrite data_of_prepend. apply zdrop_app_exact.
Qed.
Lemma read_front type id data c D st L : In id ids ->
  read_data (index_of ids id) (zlen data) {| g_buffers := bufs_of (write_data type id data c); g_dest := D; g_stack := st; g_limits := L |} =
  Some (data, {| g_buffers := bufs_of c; g_dest := D; g_stack := st; g_limits := L |}).
Proof.
  intros H. destruct (bufs_write type id data c H) as [E1 E2]. unfold read_data. cbn [g_buffers]. rewrite E1.
  pose proof (zlen_nonneg (data_of id (c_buffers c))).
  destruct (Z.ltb_spec (zlen (data ++ data_of id (c_buffers c))) (zlen data)) as [Q|Q]; [rewrite zlen_app in Q; lia|].
  rewrite E2, ztake_app_exact. reflexivity.
Qed.
Lemma write_ok data D b st L : zlen D + zlen data <= max_size ->
  write_dest max_size data {| g_buffers := b; g_dest := D; g_stack := st; g_limits := L |} =
  Some {| g_buffers := b; g_dest := data ++ D; g_stack := st; g_limits := L |}.
Proof. intros H. unfold write_dest. cbn [g_dest g_buffers g_stack g_limits]. destruct (Z.ltb_spec max_size (zlen D + zlen data)); [lia|reflexivity]. Qed.
End Restoring.
