(** The buffers written to buckets are read back. *)
From Coq Require Import Permutation.
From Verif Require Import Base.Bytes Model.Endian Model.Varint Model.Chunk Model.SimpleChunk Model.TransposeEncoder Model.TransposeDecoder.
From Verif Require Import Spec.VarintSpec Proof.VarintProof Proof.SimpleChunkProof Proof.TransposeColumns.

(** ** The order of buffers *)
Lemma insert_buffer_perm b l : Permutation (insert_buffer b l) (b :: l).
Proof.
  induction l as [|c l IH]; cbn [insert_buffer]; [reflexivity|]. destruct (buffer_less b c); [reflexivity|].
  rewrite IH. apply perm_swap.
Qed.
Lemma sort_buffers_perm l : Permutation (sort_buffers l) l.
Proof. induction l as [|b l IH]; cbn [sort_buffers fold_right]; [reflexivity|]. fold (sort_buffers l). rewrite insert_buffer_perm, IH. reflexivity. Qed.
Lemma split_types (l : list buffer) : Forall (fun b => 0 <= b_type b <= 4) l ->
  Permutation (flat_map (fun type => filter (fun b => b_type b =? type) l) all_types) l.
Proof.
  induction 1 as [|b l Hb Hl IH]; [reflexivity|]. cbn [all_types flat_map filter] in *. rewrite ?app_nil_r in *.
  assert (P : forall t1 t2 t3 t4 t5 : list buffer, Permutation (t1 ++ t2 ++ t3 ++ t4 ++ t5) l -> forall x,
    (Permutation ((x :: t1) ++ t2 ++ t3 ++ t4 ++ t5) (x :: l)) /\ (Permutation (t1 ++ (x :: t2) ++ t3 ++ t4 ++ t5) (x :: l)) /\
    (Permutation (t1 ++ t2 ++ (x :: t3) ++ t4 ++ t5) (x :: l)) /\ (Permutation (t1 ++ t2 ++ t3 ++ (x :: t4) ++ t5) (x :: l)) /\
    (Permutation (t1 ++ t2 ++ t3 ++ t4 ++ (x :: t5)) (x :: l))).
  { intros t1 t2 t3 t4 t5 P x. split; [cbn [app]; constructor; exact P|]. split; [cbn [app]; rewrite <- Permutation_middle; constructor; exact P|].
    split; [cbn [app]; rewrite app_assoc, <- Permutation_middle, <- app_assoc; constructor; exact P|].
    split; [cbn [app]; rewrite app_assoc, app_assoc, <- Permutation_middle, <- !app_assoc; constructor; exact P|].
    rewrite app_assoc, app_assoc, app_assoc, <- Permutation_middle, <- !app_assoc; constructor; exact P. }
  specialize (P _ _ _ _ _ IH b). destruct P as (P1 & P2 & P3 & P4 & P5).
  assert (C : b_type b = 0 \/ b_type b = 1 \/ b_type b = 2 \/ b_type b = 3 \/ b_type b = 4) by lia.
  destruct C as [C|[C|[C|[C|C]]]]; rewrite C; cbn [Z.eqb Pos.eqb]; assumption.
Qed.
Lemma ordered_perm c : Forall (fun b => 0 <= b_type b <= 4) (c_buffers c) -> Permutation (ordered_buffers c) (c_buffers c).
Proof.
  intros F. eapply Permutation_trans; [|apply (split_types _ F)]. unfold ordered_buffers, buffers_of_type. cbn [all_types flat_map].
  rewrite !sort_buffers_perm. reflexivity.
Qed.
Lemma wf_types c : wf c -> Forall (fun b => 0 <= b_type b <= 4) (c_buffers c).
Proof. intros W. eapply Forall_impl; [|exact (wf_data c W)]. cbv beta. tauto. Qed.
Definition buffer_ids (c : columns) : list node_id := map b_node (ordered_buffers c).
Lemma buffer_ids_unique c : wf c -> NoDup (buffer_ids c).
Proof.
  intros W. unfold buffer_ids. eapply Permutation_NoDup; [|exact (wf_nodup c W)]. unfold nodes. apply Permutation_map, Permutation_sym, ordered_perm, wf_types, W.
Qed.
Lemma buffer_ids_incl c : wf c -> incl (nodes c) (buffer_ids c).
Proof.
  intros W x Hx. unfold buffer_ids. eapply Permutation_in; [|exact Hx]. unfold nodes. apply Permutation_map, Permutation_sym, ordered_perm, wf_types, W.
Qed.
Lemma data_of_unique b l : NoDup (map b_node l) -> In b l -> data_of (b_node b) l = b_data b.
Proof.
  unfold data_of. induction l as [|c l IH]; intros ND H; [destruct H|]. cbn [map] in ND. inversion ND as [|? ? N1 N2]; subst. cbn [find].
  destruct H as [->|H]; [rewrite node_eqb_refl; reflexivity|]. destruct (node_eqb (b_node c) (b_node b)) eqn:E; [|apply IH; assumption].
  apply node_eqb_eq in E. exfalso. apply N1. rewrite E. apply in_map, H.
Qed.
Lemma ordered_data c : wf c -> map (fun id => data_of id (c_buffers c)) (buffer_ids c) = map b_data (ordered_buffers c).
Proof.
  intros W. unfold buffer_ids. rewrite map_map. apply map_ext_in. intros b Hb. apply data_of_unique; [apply (wf_nodup c W)|].
  eapply Permutation_in; [apply ordered_perm, wf_types, W|exact Hb].
Qed.
Lemma buffer_pos_index c id : buffer_pos c id = find_index (node_eqb id) (buffer_ids c).
Proof.
  unfold buffer_pos, buffer_ids. induction (ordered_buffers c) as [|b l IH]; [reflexivity|]. cbn [find_index map]. rewrite IH.
  replace (node_eqb (b_node b) id) with (node_eqb id (b_node b)); [reflexivity|]. unfold node_eqb. rewrite (Z.eqb_sym (fst id)), (Z.eqb_sym (snd id)). reflexivity.
Qed.

(** ** Buckets *)
Definition nonempty (b : list Z) : Prop := b <> [].
Section Packing.
Variable compress : Z -> list Z -> list Z.
Variable ct : Z.
Notation E := (Compressor_EncodeAndClose compress ct).
Record packed (v : written) (groups : list (list (list Z))) (cur : list (list Z)) : Prop := {
  k_bucket : v_bucket v = concat cur;
  k_data : v_data v = concat (map (fun g => E (concat g)) groups);
  k_buckets : v_buckets v = map (fun g => zlen (E (concat g))) groups;
  k_sizes : v_sizes v = map (@zlen Z) (concat groups ++ cur);
  k_nonempty : Forall nonempty (concat groups ++ cur);
  k_groups : Forall (fun g => g <> []) groups }.
Lemma concat_nonempty (g : list (list Z)) : Forall nonempty g -> g <> [] -> concat g <> [].
Proof. destruct g as [|b g]; [contradiction|]. intros F _. inversion F as [|? ? F1 F2]; subst. cbn [concat]. destruct b; [contradiction|discriminate]. Qed.
Lemma packed_flush v groups cur : packed v groups cur ->
  exists groups', packed (flush_bucket compress ct v) groups' [] /\ concat groups' = concat groups ++ cur.
Proof.
  intros [K1 K2 K3 K4 K5 K6]. unfold flush_bucket. destruct cur as [|b cur].
  - rewrite K1. cbn [concat]. exists groups. split; [constructor; assumption|rewrite app_nil_r; reflexivity].
  - assert (N : concat (b :: cur) <> []) by (apply concat_nonempty; [apply Forall_app in K5; tauto|discriminate]).
    destruct (v_bucket v) as [|x r] eqn:Q; [congruence|]. rewrite K1. set (g := b :: cur) in *. exists (groups ++ [g]).
    assert (C : concat (groups ++ [g]) = concat groups ++ g) by (rewrite concat_app; cbn [concat]; rewrite app_nil_r; reflexivity).
    split; [|exact C]. constructor; cbn [v_bucket v_data v_buckets v_sizes].
    + reflexivity.
    + rewrite K2, map_app, concat_app. cbn [map concat]. rewrite app_nil_r. reflexivity.
    + rewrite K3, map_app. reflexivity.
    + rewrite C, app_nil_r. exact K4.
    + rewrite C, app_nil_r. exact K5.
    + apply Forall_app. split; [assumption|constructor; [unfold g; discriminate|constructor]].
Qed.
Lemma packed_add nb data v groups cur : packed v groups cur -> data <> [] ->
  exists groups' cur', packed (AddBuffer compress ct nb data v) groups' cur' /\ concat groups' ++ cur' = (concat groups ++ cur) ++ [data].
Proof.
  intros K N. assert (A : forall v groups cur, packed v groups cur ->
    packed {| v_bucket := v_bucket v ++ data; v_data := v_data v; v_buckets := v_buckets v; v_sizes := v_sizes v ++ [zlen data] |} groups (cur ++ [data])).
  { intros v0 g0 c0 [K1 K2 K3 K4 K5 K6]. constructor; cbn [v_bucket v_data v_buckets v_sizes]; try assumption.
    - rewrite K1, concat_app. cbn [concat]. rewrite app_nil_r. reflexivity.
    - rewrite K4, app_assoc, (map_app _ (concat g0 ++ c0)). reflexivity.
    - rewrite app_assoc. apply Forall_app. split; [assumption|constructor; [exact N|constructor]]. }
  unfold AddBuffer. destruct nb.
  - destruct (packed_flush v groups cur K) as (groups' & K' & C). exists groups', ([] ++ [data]). split; [apply A, K'|]. cbn [app]. rewrite C. reflexivity.
  - exists groups, (cur ++ [data]). split; [apply A, K|]. rewrite app_assoc. reflexivity.
Qed.
Lemma packed_buffers l : forall buckets current v v' groups cur, add_buffers compress ct l buckets current v = Some v' ->
  packed v groups cur -> Forall (fun b => b_data b <> []) l ->
  exists groups' cur', packed v' groups' cur' /\ concat groups' ++ cur' = (concat groups ++ cur) ++ map b_data l.
Proof.
  induction l as [|b l IH]; intros buckets current v v' groups cur H K F; cbn [add_buffers] in H.
  - destruct buckets; [|discriminate]. destruct (current =? 0); [|discriminate]. injection H as <-. exists groups, cur.
    cbn [map]. rewrite app_nil_r. auto.
  - inversion F as [|? ? F1 F2]; subst. cbv zeta in H.
    assert (G : forall nb bs cu, (if cu <? zlen (b_data b) then None else add_buffers compress ct l bs (cu - zlen (b_data b)) (AddBuffer compress ct nb (b_data b) v)) = Some v' ->
      exists groups' cur', packed v' groups' cur' /\ concat groups' ++ cur' = (concat groups ++ cur) ++ map b_data (b :: l)).
    { intros nb bs cu H'. destruct (cu <? zlen (b_data b)); [discriminate|].
      destruct (packed_add nb (b_data b) v groups cur K F1) as (g1 & c1 & K1 & C1). destruct (IH _ _ _ _ _ _ H' K1 F2) as (g2 & c2 & K2 & C2).
      exists g2, c2. split; [exact K2|]. rewrite C2, C1, <- app_assoc. reflexivity. }
    destruct (current =? 0); [destruct buckets as [|size buckets]; [discriminate|]|]; eapply G, H.
Qed.
(** The sizes of buckets fit *)
Definition bsum (l : list buffer) : Z := total_size l.
Lemma total_cons b l : total_size (b :: l) = zlen (b_data b) + total_size l.
Proof. reflexivity. Qed.
Lemma total_app a b : total_size (a ++ b) = total_size a + total_size b.
Proof. induction a as [|x a IH]; [reflexivity|]. cbn [app]. rewrite !total_cons, IH. lia. Qed.
Lemma total_nonneg l : 0 <= total_size l.
Proof. induction l as [|x l IH]; [cbn; lia|]. rewrite total_cons. pose proof (zlen_nonneg (b_data x)). lia. Qed.
Lemma total_pos l : Forall (fun b => b_data b <> []) l -> l <> [] -> 0 < total_size l.
Proof.
  destruct l as [|b l]; [contradiction|]. intros F _. inversion F as [|? ? F1 F2]; subst. rewrite total_cons. pose proof (total_nonneg l).
  destruct (b_data b); [contradiction|]. rewrite zlen_cons. pose proof (zlen_nonneg l0). lia.
Qed.
Lemma bucket_sizes_parts bs l : forall cur parts, Forall (fun b => b_data b <> []) (rev l ++ cur ++ concat parts) -> Forall (fun p => p <> []) parts ->
  exists parts', bucket_sizes bs l (total_size (rev l)) (total_size cur) (map total_size parts) = map total_size parts' /\
    concat parts' = rev l ++ cur ++ concat parts /\ Forall (fun p => p <> []) parts'.
Proof.
  assert (FIN : forall pre cur parts, Forall (fun b => b_data b <> []) (pre ++ cur ++ concat parts) -> Forall (fun p : list buffer => p <> []) parts ->
    exists parts', (if 0 <? total_size (pre ++ cur) then total_size (pre ++ cur) :: map total_size parts else map total_size parts) = map total_size parts' /\
      concat parts' = pre ++ cur ++ concat parts /\ Forall (fun p => p <> []) parts').
  { intros pre cur parts F FP. rewrite app_assoc in *. destruct (Z.ltb_spec 0 (total_size (pre ++ cur))) as [Q|Q].
    - exists ((pre ++ cur) :: parts). split; [reflexivity|]. split; [reflexivity|]. constructor; [intros N; rewrite N in Q; cbn in Q; lia|assumption].
    - assert (pre ++ cur = []) as ->.
      { destruct (pre ++ cur) as [|b x] eqn:N; [reflexivity|]. rewrite <- N in *. apply Forall_app in F. destruct F as [F _].
        pose proof (total_pos _ F ltac:(rewrite N; discriminate)). lia. }
      exists parts. auto. }
  induction l as [|b l IH]; intros cur parts F FP; cbn [bucket_sizes rev].
  - apply (FIN [] cur parts); assumption.
  - cbn [rev] in F. rewrite <- app_assoc in F. cbn [app] in F.
    set (flush := (0 <? total_size cur) && (bs <=? total_size cur + zlen (b_data b) / 2)).
    assert (X : exists cur' parts', (if flush then total_size cur :: map total_size parts else map total_size parts) = map total_size parts' /\
      (if flush then 0 else total_size cur) + zlen (b_data b) = total_size cur' /\ cur' ++ concat parts' = b :: cur ++ concat parts /\ Forall (fun p : list buffer => p <> []) parts').
    { destruct flush eqn:Q.
      - exists [b], (cur :: parts). split; [reflexivity|]. split; [rewrite total_cons; change (total_size []) with 0; lia|]. split; [reflexivity|].
        constructor; [|assumption]. unfold flush in Q. apply andb_true_iff in Q. destruct Q as [Q _]. apply Z.ltb_lt in Q. intros ->. cbn in Q. lia.
      - exists (b :: cur), parts. split; [reflexivity|]. split; [rewrite total_cons; lia|]. split; [reflexivity|assumption]. }
    destruct X as (cur' & parts' & -> & -> & C & FP').
    assert (T : total_size (rev l ++ [b]) - zlen (b_data b) = total_size (rev l)) by (rewrite total_app, total_cons; change (total_size []) with 0; lia).
    rewrite T. rewrite <- !app_assoc. cbn [app]. rewrite <- C in *.
    destruct (total_size (rev l) <=? bs / 2).
    + replace (total_size cur' + total_size (rev l)) with (total_size (rev l ++ cur')) by (rewrite total_app; lia). apply FIN; assumption.
    + apply IH; assumption.
Qed.
Lemma add_buffers_total parts : forall cur v, Forall (fun b => b_data b <> []) (cur ++ concat parts) -> Forall (fun p => p <> []) parts ->
  exists v', add_buffers compress ct (cur ++ concat parts) (map total_size parts) (total_size cur) v = Some v'.
Proof.
  induction parts as [|p parts IHp].
  - induction cur as [|b cur IH]; intros v F FP; cbn [concat map app add_buffers].
    + rewrite Z.eqb_refl. eexists; reflexivity.
    + inversion F as [|? ? F1 F2]; subst. cbv zeta. pose proof (total_pos (b :: cur)) as TP. rewrite app_nil_r in F.
      specialize (TP F ltac:(discriminate)). destruct (Z.eqb_spec (total_size (b :: cur)) 0); [lia|]. rewrite total_cons. pose proof (total_nonneg cur).
      destruct (Z.ltb_spec (zlen (b_data b) + total_size cur) (zlen (b_data b))); [lia|].
      replace (zlen (b_data b) + total_size cur - zlen (b_data b)) with (total_size cur) by lia. apply IH; assumption.
  - induction cur as [|b cur IH]; intros v F FP.
    + inversion FP as [|? ? FP1 FP2]; subst. destruct p as [|b p]; [contradiction|]. cbn [app concat map add_buffers total_size fold_right] in *. cbv zeta.
      cbn [Z.eqb]. fold (total_size p). pose proof (total_nonneg p).
      destruct (Z.ltb_spec (zlen (b_data b) + total_size p) (zlen (b_data b))); [lia|].
      replace (zlen (b_data b) + total_size p - zlen (b_data b)) with (total_size p) by lia. apply IHp; [inversion F; assumption|assumption].
    + cbn [app add_buffers]. cbv zeta. inversion F as [|? ? F1 F2]; subst.
      assert (0 < zlen (b_data b)) by (destruct (b_data b); [contradiction|rewrite zlen_cons; pose proof (zlen_nonneg l); lia]).
      pose proof (total_nonneg cur). rewrite total_cons. destruct (Z.eqb_spec (zlen (b_data b) + total_size cur) 0); [lia|].
      destruct (Z.ltb_spec (zlen (b_data b) + total_size cur) (zlen (b_data b))); [lia|].
      replace (zlen (b_data b) + total_size cur - zlen (b_data b)) with (total_size cur) by lia. apply IH; assumption.
Qed.
Definition all_data (c : columns) : list (list Z) := map b_data (ordered_buffers c) ++ match c_lengths c with [] => [] | l => [l] end.
Lemma wf_of_type c type : wf c -> Forall (fun b => b_data b <> []) (buffers_of_type type c).
Proof.
  intros W. apply Forall_forall. intros b Hb. unfold buffers_of_type in Hb.
  apply (Permutation_in b (sort_buffers_perm _)) in Hb. apply filter_In in Hb. pose proof (wf_data c W) as F. rewrite Forall_forall in F. apply F, Hb.
Qed.
Lemma add_types_ok o c types : wf c -> o_ct o = ct -> forall v v' groups cur, add_types compress o types c v = Some v' -> packed v groups cur ->
  exists groups' cur', packed v' groups' cur' /\ concat groups' ++ cur' = (concat groups ++ cur) ++ map b_data (flat_map (fun type => buffers_of_type type c) types).
Proof.
  intros W Hc. induction types as [|type types IH]; intros v v' groups cur H K; cbn [add_types] in H.
  - injection H as <-. exists groups, cur. cbn [flat_map map]. rewrite app_nil_r. auto.
  - destruct (add_type compress o type c v) as [v1|] eqn:E; [|discriminate]. unfold add_type in E. rewrite Hc in E.
    destruct (packed_buffers _ _ _ _ _ _ _ E K (wf_of_type c type W)) as (g1 & c1 & K1 & C1).
    destruct (IH _ _ _ _ H K1) as (g2 & c2 & K2 & C2). exists g2, c2. split; [exact K2|]. rewrite C2, C1. cbn [flat_map]. rewrite map_app, <- !app_assoc. reflexivity.
Qed.
Lemma add_types_total o c types : wf c -> o_ct o = ct -> forall v, exists v', add_types compress o types c v = Some v'.
Proof.
  intros W Hc. induction types as [|type types IH]; intros v; cbn [add_types]; [eexists; reflexivity|].
  unfold add_type. rewrite Hc. set (l := buffers_of_type type c). pose proof (wf_of_type c type W) as F. fold l in F.
  destruct (bucket_sizes_parts (effective_bucket_size o) (rev l) [] []) as (parts & E & C & FP); [rewrite rev_involutive; cbn [app concat]; rewrite app_nil_r; exact F|constructor|].
  rewrite rev_involutive in E, C. change (total_size []) with 0 in E. cbn [map] in E. rewrite E. cbn [app concat] in C. rewrite app_nil_r in C. subst l.
  destruct (add_buffers_total parts [] v) as (v1 & E1); [cbn [app]; rewrite C; exact F|exact FP|]. cbn [app] in E1. rewrite C in E1. change (total_size []) with 0 in E1.
  rewrite E1. apply IH.
Qed.
Lemma WriteBuffers_ok o c header data : wf c -> o_ct o = ct -> WriteBuffers compress o c = Some (header, data) ->
  exists groups, concat groups = all_data c /\ Forall nonempty (concat groups) /\ Forall (fun g => g <> []) groups /\
    data = concat (map (fun g => E (concat g)) groups) /\
    header = WriteVarint V32 (zlen groups) ++ WriteVarint V32 (zlen (concat groups)) ++
             flat_map (fun g => WriteVarint V64 (zlen (E (concat g)))) groups ++ flat_map (fun b => WriteVarint V64 (zlen b)) (concat groups).
Proof.
  intros W Hc. unfold WriteBuffers.
  destruct (add_types compress o all_types c {| v_bucket := []; v_data := []; v_buckets := []; v_sizes := [] |}) as [v|] eqn:E; [|discriminate].
  assert (K0 : packed {| v_bucket := []; v_data := []; v_buckets := []; v_sizes := [] |} [] []) by (constructor; try reflexivity; constructor).
  destruct (add_types_ok o c all_types W Hc _ _ _ _ E K0) as (g1 & c1 & K1 & C1). cbn [concat app] in C1. fold (ordered_buffers c) in C1.
  rewrite Hc. intros H.
  assert (K2 : exists g2 c2, packed (match c_lengths c with [] => v | lengths => AddBuffer compress ct true lengths v end) g2 c2 /\ concat g2 ++ c2 = all_data c).
  { unfold all_data. destruct (c_lengths c) as [|x l] eqn:L; [exists g1, c1; rewrite app_nil_r; auto|].
    destruct (packed_add true (x :: l) v g1 c1 K1 ltac:(discriminate)) as (g2 & c2 & K2 & C2). exists g2, c2. split; [exact K2|]. rewrite C2, C1. reflexivity. }
  destruct K2 as (g2 & c2 & K2 & C2). destruct (packed_flush _ _ _ K2) as (g3 & K3 & C3). exists g3. rewrite C2 in C3.
  destruct K3 as [K31 K32 K33 K34 K35 K36]. rewrite app_nil_r in K34, K35. cbv zeta in H. rewrite K32, K33, K34 in H.
  assert (FM : forall (A : Type) (f : A -> Z) l, flat_map (WriteVarint V64) (map f l) = flat_map (fun a => WriteVarint V64 (f a)) l)
    by (intros A f l; rewrite !flat_map_concat_map, map_map; reflexivity).
  rewrite !zlen_map, !FM in H. injection H as H1 H2. split; [exact C3|]. split; [exact K35|]. split; [exact K36|]. split; symmetry; assumption.
Qed.
Lemma WriteBuffers_total o c : wf c -> o_ct o = ct -> exists header data, WriteBuffers compress o c = Some (header, data).
Proof. intros W Hc. unfold WriteBuffers. destruct (add_types_total o c all_types W Hc {| v_bucket := []; v_data := []; v_buckets := []; v_sizes := [] |}) as [v ->]. eexists _, _; reflexivity. Qed.

(** ** Reading them back *)
Variable decompress : Z -> list Z -> option (list Z).
Hypothesis compress_bytes : forall t l, bytes l -> bytes (compress t l).
Hypothesis round : forall t l, bytes l -> decompress t (compress t l) = Some l.
Hypothesis known : known_compression ct = true.
Lemma flat_varints_bytes (A : Type) (f : A -> Z) l : Forall (fun a => 0 <= f a < 2 ^ 64) l -> bytes (flat_map (fun a => WriteVarint V64 (f a)) l).
Proof. induction 1 as [|a l Ha Hl IH]; cbn [flat_map]; [constructor|]. apply bytes_app. split; [apply bytes_WriteVarint; exact Ha|exact IH]. Qed.
Lemma zlen_concat_le (b : list Z) l : In b l -> zlen b <= zlen (concat l).
Proof.
  induction l as [|c l IH]; intros H; [destruct H|]. cbn [concat]. rewrite zlen_app. pose proof (zlen_nonneg c). pose proof (zlen_nonneg (concat l)).
  destruct H as [->|H]; [lia|]. specialize (IH H). lia.
Qed.
Lemma bytes_concat (l : list (list Z)) : Forall bytes l -> bytes (concat l).
Proof. induction 1; cbn [concat]; [constructor|apply bytes_app; auto]. Qed.
Lemma read_buckets_ok groups : forall H S, Forall (fun g => bytes (concat g) /\ zlen (concat g) < 2 ^ 64 /\ zlen (E (concat g)) < 2 ^ 64) groups -> bytes H ->
  read_buckets decompress ct (length groups) (flat_map (fun g => WriteVarint V64 (zlen (E (concat g)))) groups ++ H)
    (concat (map (fun g => E (concat g)) groups) ++ S) = Some (map (@concat Z) groups, H, S).
Proof.
  induction groups as [|g groups IH]; intros H S F HH; cbn [length read_buckets map concat flat_map app]; [reflexivity|].
  inversion F as [|? ? (F1 & F2 & F3) F4]; subst. pose proof (zlen_nonneg (E (concat g))). rewrite <- !app_assoc.
  rewrite ReadVarint_Write; [|apply V64_ok|cbn [vbits V64]; lia|].
  2:{ apply bytes_app. split; [|exact HH]. apply flat_varints_bytes. eapply Forall_impl; [|exact F4]. cbv beta. intros a (_ & _ & ?). pose proof (zlen_nonneg (E (concat a))). lia. }
  match goal with |- context [zlen (?a ++ ?b) <? zlen ?a] => replace (zlen (a ++ b) <? zlen a) with false by (symmetry; apply Z.ltb_ge; rewrite zlen_app; pose proof (zlen_nonneg b); lia) end.
  rewrite ztake_app_exact, zdrop_app_exact, (decompressor_ok compress decompress compress_bytes round) by assumption.
  rewrite IH by assumption. reflexivity.
Qed.
Lemma next_bucket_nonempty b bs : b <> [] -> next_bucket b bs = (b, bs).
Proof. destruct b, bs; try contradiction; reflexivity. Qed.
Lemma read_buffers_ok l : forall g groups H, l = g ++ concat groups -> g <> [] \/ groups = [] -> Forall nonempty l -> Forall (fun g => g <> []) groups ->
  Forall (fun b : list Z => zlen b < 2 ^ 64) l -> bytes H ->
  read_buffers (length l) (flat_map (fun b => WriteVarint V64 (zlen b)) l ++ H) (concat g) (map (@concat Z) groups) = Some (l, H).
Proof.
  induction l as [|b l IH]; intros g groups H El Hg F FG FB HH; cbn [length read_buffers flat_map app].
  - destruct g; [|discriminate]. destruct Hg as [Hg| ->]; [contradiction|]. reflexivity.
  - destruct g as [|b' g]; [destruct Hg as [Hg| ->]; [contradiction|discriminate]|]. cbn [app] in El. injection El as <- El.
    inversion F as [|? ? F1 F2]; subst. inversion FB as [|? ? FB1 FB2]; subst. rewrite <- app_assoc. pose proof (zlen_nonneg b).
    assert (FR : Forall (fun b0 : list Z => 0 <= zlen b0 < 2 ^ 64) (g ++ concat groups)) by (eapply Forall_impl; [|exact FB2]; cbv beta; intros a Ha; pose proof (zlen_nonneg a); lia).
    rewrite ReadVarint_Write; [|apply V64_ok|cbn [vbits V64]; lia|apply bytes_app; split; [apply flat_varints_bytes; exact FR|exact HH]].
    cbn [concat]. replace (zlen (b ++ concat g) <? zlen b) with false by (symmetry; apply Z.ltb_ge; rewrite zlen_app; pose proof (zlen_nonneg (concat g)); lia).
    rewrite ztake_app_exact, zdrop_app_exact.
    assert (NB : exists g2 gs2, next_bucket (concat g) (map (@concat Z) groups) = (concat g2, map (@concat Z) gs2) /\ g ++ concat groups = g2 ++ concat gs2 /\
       (g2 <> [] \/ gs2 = []) /\ Forall (fun g => g <> []) gs2).
    { destruct g as [|x g].
      - destruct groups as [|g2 groups].
        + exists [], []. cbn. auto.
        + exists g2, groups. inversion FG as [|? ? FG1 FG2]; subst. cbn [concat map app] in *. split; [|auto].
          assert (N : concat g2 <> []) by (apply concat_nonempty; [apply Forall_app in F2; apply F2|assumption]).
          cbn [next_bucket]. apply next_bucket_nonempty, N.
      - exists (x :: g), groups. assert (N : concat (x :: g) <> []) by (apply concat_nonempty; [apply Forall_app in F2; apply F2|discriminate]).
        split; [|split; [reflexivity|split; [left; discriminate|assumption]]].
        apply next_bucket_nonempty, N. }
    destruct NB as (g2 & gs2 & -> & E2 & Hg2 & FG2). rewrite (IH g2 gs2 H E2 Hg2 F2 FG2 FB2 HH). reflexivity.
Qed.
Lemma groups_le (A : Type) (groups : list (list A)) : Forall (fun g => g <> []) groups -> zlen groups <= zlen (concat groups).
Proof.
  induction 1 as [|g groups Hg _ IH]; cbn [concat]; [unfold zlen; cbn [length]; lia|]. rewrite zlen_cons, zlen_app. destruct g; [contradiction|]. rewrite zlen_cons. pose proof (zlen_nonneg g). lia.
Qed.
Lemma ParseBuffers_ok groups header data H S : header = WriteVarint V32 (zlen groups) ++ WriteVarint V32 (zlen (concat groups)) ++
             flat_map (fun g => WriteVarint V64 (zlen (E (concat g)))) groups ++ flat_map (fun b => WriteVarint V64 (zlen b)) (concat groups) ->
  data = concat (map (fun g => E (concat g)) groups) ->
  Forall nonempty (concat groups) -> Forall (fun g => g <> []) groups -> Forall bytes (concat groups) -> zlen (concat (concat groups)) < 2 ^ 64 -> zlen data < 2 ^ 64 ->
  zlen (concat groups) < 2 ^ 32 -> bytes H -> bytes header /\ bytes data /\
  ParseBuffers decompress ct (header ++ H) (data ++ S) = Some (concat groups, H, S).
Proof.
  intros -> -> F FG FB L1 L2 L3 HH.
  assert (FE : Forall (fun g => bytes (concat g) /\ zlen (concat g) < 2 ^ 64 /\ zlen (E (concat g)) < 2 ^ 64) groups).
  { apply Forall_forall. intros g Hg.
    assert (BG : bytes (concat g)).
    { apply bytes_concat, Forall_forall. intros b Hb. rewrite Forall_forall in FB. apply FB, in_concat. exists g; auto. }
    split; [exact BG|]. split.
    - assert (LE : zlen (concat g) <= zlen (concat (map (@concat Z) groups))) by (apply zlen_concat_le, in_map, Hg).
      assert (CC : concat (map (@concat Z) groups) = concat (concat groups)) by (clear; induction groups as [|x gs IH]; [reflexivity|cbn [map concat]; rewrite concat_app, IH; reflexivity]).
      rewrite CC in LE. lia.
    - assert (zlen (E (concat g)) <= zlen (concat (map (fun g => E (concat g)) groups))) by (apply zlen_concat_le; apply (in_map (fun g => E (concat g)) _ _ Hg)).
      lia. }
  assert (B1 : bytes (flat_map (fun g => WriteVarint V64 (zlen (E (concat g)))) groups)).
  { apply flat_varints_bytes. eapply Forall_impl; [|exact FE]. cbv beta. intros a (_ & _ & ?). pose proof (zlen_nonneg (E (concat a))). lia. }
  assert (FB2 : Forall (fun b : list Z => zlen b < 2 ^ 64) (concat groups)).
  { apply Forall_forall. intros b Hb. pose proof (zlen_concat_le b _ Hb). lia. }
  assert (B2 : bytes (flat_map (fun b : list Z => WriteVarint V64 (zlen b)) (concat groups))).
  { apply flat_varints_bytes. eapply Forall_impl; [|exact FB2]. cbv beta. intros a ?. pose proof (zlen_nonneg a). lia. }
  pose proof (zlen_nonneg groups). pose proof (zlen_nonneg (concat groups)). pose proof (groups_le _ _ FG).
  split; [|split].
  - apply bytes_app. split; [apply is_varint_bytes, WriteVarint_spec; [apply V32_ok|cbn [vbits V32]; lia]|].
    apply bytes_app. split; [apply is_varint_bytes, WriteVarint_spec; [apply V32_ok|cbn [vbits V32]; lia]|]. apply bytes_app. auto.
  - apply bytes_concat. apply Forall_forall. intros x Hx. apply in_map_iff in Hx. destruct Hx as (g & <- & Hg). rewrite Forall_forall in FE. destruct (FE g Hg) as (G1 & G2 & _).
    apply (bytes_encode compress decompress compress_bytes round); assumption.
  - unfold ParseBuffers. rewrite <- !app_assoc.
    rewrite ReadVarint_Write; [|apply V32_ok|cbn [vbits V32]; lia|].
    2:{ apply bytes_app. split; [apply is_varint_bytes, WriteVarint_spec; [apply V32_ok|cbn [vbits V32]; lia]|]. rewrite !bytes_app. auto. }
    rewrite ReadVarint_Write; [|apply V32_ok|cbn [vbits V32]; lia|rewrite !bytes_app; auto].
    destruct groups as [|g groups'] eqn:Eg.
    + cbn. reflexivity.
    + rewrite <- Eg in *. destruct (Z.eqb_spec (zlen groups) 0) as [Q|_]; [rewrite Eg, zlen_cons in Q; pose proof (zlen_nonneg groups'); lia|].
      replace (Z.to_nat (zlen groups)) with (length groups) by (unfold zlen; lia). rewrite read_buckets_ok by (try assumption; apply bytes_app; auto).
      replace (Z.to_nat (zlen (concat groups))) with (length (concat groups)) by (unfold zlen; lia).
      rewrite Eg at 1. cbn [map]. rewrite (read_buffers_ok (concat groups) g groups'); try assumption.
      * reflexivity.
      * rewrite Eg. reflexivity.
      * left. rewrite Eg in FG. inversion FG; assumption.
      * rewrite Eg in FG. inversion FG; assumption.
Qed.
End Packing.
