(** Chunks of the stored log. *)
From Verif Require Import Base BaseProofs LogMathModel LogMathSpec LogTreeModel LogTreeSpec NodeMathProofs LogMathProofs LogMathProofs2 LogTreeProofs LogChunkModel LogChunkSpec.

Lemma left_nid' k q : k <= 63 -> left (nid (k + 1) q) = Ok (nid k (2 * q)).
Proof. intro H. rewrite left_nid by lia. do 2 f_equal. lia. Qed.
Lemma rightStep_nid' k q : k <= 62 -> rightStep (nid (k + 1) q) = Ok (nid k (2 * q + 1)).
Proof. intro H. rewrite rightStep_nid by lia. do 2 f_equal. lia. Qed.

(** The (level, index) coordinates of the nodes of chunk [p] of the row of chunks whose bottom is level [b]. *)
Definition coords (b p : N) : list (N * N) :=
  [(b, 8*p); (b+1, 4*p); (b, 8*p+1); (b+2, 2*p); (b, 8*p+2); (b+1, 4*p+1); (b, 8*p+3); (b+3, p);
   (b, 8*p+4); (b+1, 4*p+2); (b, 8*p+5); (b+2, 2*p+1); (b, 8*p+6); (b+1, 4*p+3); (b, 8*p+7)].
Definition nidp (z : N * N) : N := nid (fst z) (snd z).

Lemma chunkIds_spec b p : b <= 60 -> chunkIds (nid (b + 3) p) = Ok (map nidp (coords b p)).
Proof.
  intro Hb. unfold chunkIds.
  replace (b + 3) with (b + 1 + 1 + 1) by lia.
  rewrite left_nid' by lia. cbn [bind]. rewrite left_nid' by lia. cbn [bind]. rewrite left_nid' by lia. cbn [bind].
  rewrite rightStep_nid' by lia. cbn [bind]. rewrite rightStep_nid' by lia. cbn [bind].
  rewrite left_nid' by lia. cbn [bind]. rewrite rightStep_nid' by lia. cbn [bind].
  rewrite rightStep_nid' by lia. cbn [bind]. rewrite left_nid' by lia. cbn [bind].
  rewrite left_nid' by lia. cbn [bind]. rewrite rightStep_nid' by lia. cbn [bind].
  rewrite rightStep_nid' by lia. cbn [bind]. rewrite left_nid' by lia. cbn [bind]. rewrite rightStep_nid' by lia. cbn [bind].
  unfold coords, nidp. cbn [map fst snd].
  replace (b + 1 + 1 + 1) with (b + 3) by lia. replace (b + 1 + 1) with (b + 2) by lia.
  repeat match goal with |- Ok ?a = Ok ?b => f_equal | |- ?a :: ?l = ?b :: ?m => f_equal | |- nid _ _ = nid _ _ => f_equal; lia end.
Qed.

Lemma coords_NoDup b p : NoDup (map nidp (coords b p)).
Proof.
  apply FinFun.Injective_map_NoDup.
  { intros [k q] [k' q'] E. unfold nidp in E. cbn [fst snd] in E. apply nid_inj in E. destruct E. congruence. }
  unfold coords.
  repeat (constructor; [intro I; repeat (destruct I as [I|I]; [injection I; lia|]); destruct I|]). constructor.
Qed.

Lemma findIndex_spec ids x : NoDup ids -> forall i m, nth_error ids i = Some x -> findIndexFrom m ids x = Ok (m + i)%nat.
Proof.
  induction 1 as [|y l Hn ND IH]; intros i m E; [destruct i; discriminate|].
  cbn [findIndexFrom]. destruct i as [|i].
  - cbn in E. injection E as ->. rewrite N.eqb_refl. f_equal. lia.
  - cbn in E. destruct (N.eqb_spec y x) as [->|_]; [exfalso; apply Hn; eapply nth_error_In; eauto|].
    rewrite (IH i) by auto. f_equal. lia.
Qed.

Lemma setNth_spec {A} (l : list A) i v w : nth_error l i = Some w ->
  exists l', setNth l i v = Ok l' /\ nth_error l' i = Some v /\ (forall j, j <> i -> nth_error l' j = nth_error l j) /\ List.length l' = List.length l.
Proof.
  revert i. induction l as [|a l IH]; intros i E; [destruct i; discriminate|].
  destruct i as [|i]; cbn [setNth].
  - eexists. split; [reflexivity|]. split; [reflexivity|]. split; [|reflexivity]. intros [|j] Hj; [congruence|reflexivity].
  - cbn in E. destruct (IH i E) as (l' & E' & A1 & A2 & A3). rewrite E'. cbn [bind]. eexists. split; [reflexivity|].
    split; [exact A1|]. split; [|cbn; lia]. intros [|j] Hj; [reflexivity|]. cbn. apply A2. lia.
Qed.

Lemma full_iff n k q : fullN n k q = true <-> (q + 1) * 2 ^ k <= n.
Proof. unfold fullN. lia. Qed.

Lemma full_mono n m k q : n <= m -> fullN n k q = true -> fullN m k q = true.
Proof. intros Hm F. apply full_iff in F. apply full_iff. lia. Qed.

Lemma full_child n k q : fullN n (k + 1) q = true -> fullN n k (2 * q) = true /\ fullN n k (2 * q + 1) = true.
Proof. rewrite !full_iff, pow2_S. intro F. pose proof (pow2_pos k). split; nia. Qed.

Lemma Forall2_nth {A B} (P : A -> B -> Prop) l m : Forall2 P l m -> forall i a, nth_error l i = Some a -> exists b, nth_error m i = Some b /\ P a b.
Proof.
  induction 1 as [|x y l m Hxy F IH]; intros i a E; [destruct i; discriminate|].
  destruct i as [|i]; cbn in E |- *; [injection E as <-; eauto|auto].
Qed.

Lemma Forall2_of_nth {A B} (P : A -> B -> Prop) l m : List.length l = List.length m ->
  (forall i a b, nth_error l i = Some a -> nth_error m i = Some b -> P a b) -> Forall2 P l m.
Proof.
  revert m. induction l as [|x l IH]; intros [|y m] E H; try discriminate; constructor.
  - apply (H 0%nat); reflexivity.
  - apply IH; [now injection E|]. intros i a b E1 E2. apply (H (S i)); auto.
Qed.

Lemma coords_child b p k q : In (k, q) (coords b p) -> k <> b -> 
  exists k', k = k' + 1 /\ b <= k' /\ In (k', 2 * q) (coords b p) /\ In (k', 2 * q + 1) (coords b p).
Proof.
  unfold coords. intros I Hk.
  assert (E : forall a a' c c' : N, a = a' -> c = c' -> (a, c) = (a', c')) by congruence.
  repeat (destruct I as [I|I]; [apply pair_equal_spec in I; destruct I as [<- <-]; first [congruence|
    first [exists b; split; [lia|] | exists (b + 1); split; [lia|] | exists (b + 2); split; [lia|]];
    split; [lia|]; split; cbn [In];
    repeat first [left; apply E; lia | right]]|]). destruct I.
Qed.

Lemma coords_level b p k q : In (k, q) (coords b p) -> b <= k <= b + 3.
Proof. unfold coords. intro I. repeat (destruct I as [I|I]; [injection I; lia|]). destruct I. Qed.

Lemma isLeaf_nid k q : k <= 63 -> isLeaf (nid k q) = (k =? 0).
Proof.
  intro Hk. unfold isLeaf. rewrite land_1. destruct (N.eqb_spec k 0) as [->|Hne].
  - rewrite nid_0, N.mul_comm, N.mod_mul by lia. reflexivity.
  - rewrite nid_mod2_pos by lia. reflexivity.
Qed.

(** The serialized chunk. *)
Lemma Forall2_15 {A B} (P : A -> B -> Prop) a0 a1 a2 a3 a4 a5 a6 a7 a8 a9 a10 a11 a12 a13 a14 m :
  Forall2 P [a0;a1;a2;a3;a4;a5;a6;a7;a8;a9;a10;a11;a12;a13;a14] m ->
  exists b0 b1 b2 b3 b4 b5 b6 b7 b8 b9 b10 b11 b12 b13 b14, m = [b0;b1;b2;b3;b4;b5;b6;b7;b8;b9;b10;b11;b12;b13;b14] /\
   P a0 b0 /\ P a1 b1 /\ P a2 b2 /\ P a3 b3 /\ P a4 b4 /\ P a5 b5 /\ P a6 b6 /\ P a7 b7 /\ P a8 b8 /\ P a9 b9 /\ P a10 b10 /\
   P a11 b11 /\ P a12 b12 /\ P a13 b13 /\ P a14 b14.
Proof.
  intro F. repeat match goal with H : Forall2 _ (_ :: _) _ |- _ => inversion H; clear H; subst end.
  match goal with H : Forall2 _ [] _ |- _ => inversion H; clear H; subst end.
  do 15 eexists. split; [reflexivity|]. repeat split; assumption.
Qed.

(** How many of the eight bottom nodes are full. *)
Lemma bottoms n b p : exists c : N, c <= 8 /\ forall o, o < 8 -> (fullN n b (8 * p + o) = true <-> o < c).
Proof.
  pose proof (pow2_pos b) as Hp.
  exists (N.min 8 (n / 2 ^ b - 8 * p)). split; [lia|]. intros o Ho. rewrite full_iff.
  pose proof (N.div_mod n (2 ^ b) ltac:(lia)) as D. pose proof (N.mod_lt n (2 ^ b) ltac:(lia)) as M.
  set (Q := n / 2 ^ b) in *. split; intro A.
  - assert (8 * p + o < Q) by nia. lia.
  - assert (8 * p + o + 1 <= Q) by lia. nia.
Qed.

Lemma full_down n b d q o : fullN n (b + d) q = true -> o < 2 ^ d -> fullN n b (2 ^ d * q + o) = true.
Proof.
  rewrite !full_iff. rewrite N.pow_add_r. intros F Ho. pose proof (pow2_pos b). nia.
Qed.

Lemma full_false_up n b d q o : fullN n b (2 ^ d * q + o) = false -> o < 2 ^ d -> fullN n (b + d) q = false.
Proof. intros F Ho. destruct (fullN n (b + d) q) eqn:E; auto. rewrite (full_down _ _ _ _ _ E Ho) in F. discriminate. Qed.

Lemma case9 (c : N) : c <= 8 -> c = 0 \/ c = 1 \/ c = 2 \/ c = 3 \/ c = 4 \/ c = 5 \/ c = 6 \/ c = 7 \/ c = 8.
Proof. lia. Qed.

(** The values of the eight bottom nodes are known, and with them the emptiness of those above. *)
Lemma fulls_of n b p c : (forall o, o < 8 -> (fullN n b (8 * p + o) = true <-> o < c)) ->
  forall o, o < 8 -> fullN n b (8 * p + o) = (o <? c).
Proof.
  intros Hc o Ho. specialize (Hc o Ho). destruct (fullN n b (8 * p + o)) eqn:E; destruct (N.ltb_spec o c); auto.
  - apply proj1 in Hc. specialize (Hc eq_refl). lia.
  - apply proj2 in Hc. specialize (Hc ltac:(assumption)). discriminate.
Qed.

Section Hash.
Variable f : bytes -> bytes.
Variable hs : N.
Hypothesis Hf : forall x, lenN (f x) = hs.
Hypothesis Hhs : 0 < hs.
Variable L : list bytes.
Hypothesis HL : Forall (fun e : bytes => lenN e = hs) L.

Local Notation V := (hval f L).

Lemma V_succ k q : V (k + 1) q = f (tagK k (V k (2 * q)) ++ tagK k (V k (2 * q + 1))).
Proof. unfold hval. replace (N.to_nat (k + 1)) with (S (N.to_nat k)) by lia. cbn [hvalF]. now rewrite N2Nat.id. Qed.

Lemma V_len k q : fullN (lenN L) k q = true -> lenN (V k q) = hs.
Proof.
  intro F. apply full_iff in F. destruct (N.eq_dec k 0) as [->|Hk].
  - unfold hval. cbn [N.to_nat hvalF]. rewrite N.pow_0_r in F.
    rewrite Forall_forall in HL. apply HL. apply nth_In. unfold lenN in F. lia.
  - replace k with (k - 1 + 1) by lia. rewrite V_succ. apply Hf.
Qed.

Lemma V_nonempty k q : fullN (lenN L) k q = true -> V k q <> [].
Proof. intro F. apply V_len in F. intro E. rewrite E in F. cbn in F. lia. Qed.

(** A node of a chunk in a log of [n] entries. *)
Definition okNode (n b : N) (z : N * N) (nd : nodeData) : Prop :=
  fst nd = (fst z =? 0) /\
  (snd nd = [] \/ (fullN n (fst z) (snd z) = true /\ snd nd = V (fst z) (snd z))) /\
  (fst z = b -> fullN n (fst z) (snd z) = true -> snd nd = V (fst z) (snd z)).

Definition chunkOk (n b p : N) (c : nodeChunk) : Prop :=
  ch_ids c = map nidp (coords b p) /\ Forall2 (okNode n b) (coords b p) (ch_nodes c).

Lemma chunkOk_set n b p c i z nd : chunkOk n b p c -> nth_error (coords b p) i = Some z -> okNode n b z nd ->
  exists c', setIdx c i nd = Ok c' /\ chunkOk n b p c'.
Proof.
  intros [Ei F] Ez Ok. destruct (Forall2_nth _ _ _ F _ _ Ez) as (nd0 & E0 & _).
  destruct (setNth_spec _ _ nd _ E0) as (l' & E1 & A1 & A2 & A3). unfold setIdx. rewrite E1. cbn [bind].
  eexists. split; [reflexivity|]. split; [exact Ei|]. cbn [ch_nodes]. apply Forall2_of_nth.
  - rewrite A3. apply Forall2_len in F. unfold lenN in F. lia.
  - intros j a b' Ea Eb. destruct (Nat.eq_dec j i) as [->|Hj].
    + assert (a = z) by congruence. assert (b' = nd) by congruence. now subst.
    + rewrite A2 in Eb by auto. destruct (Forall2_nth _ _ _ F _ _ Ea) as (b2 & E2 & O2). congruence.
Qed.

Lemma get_spec n b p : n <= lenN L -> b <= 60 -> forall fuel c k q, chunkOk n b p c -> In (k, q) (coords b p) -> fullN n k q = true ->
  k - b < N.of_nat fuel ->
  exists c', chunkGet (full f) fuel c (nid k q) = Ok ((k =? 0, V k q), c') /\ chunkOk n b p c'.
Proof.
  intros Hn Hb. induction fuel as [|fuel IH]; intros c k q C I F Hfu; [lia|].
  cbn [chunkGet]. destruct (In_nth_error _ _ I) as (i & Ei).
  pose proof (coords_level _ _ _ _ I) as Lv.
  unfold findIndex. rewrite (proj1 C), (findIndex_spec _ (nid k q) (coords_NoDup b p) i 0)
    by (rewrite nth_error_map, Ei; reflexivity). cbn [bind Nat.add].
  destruct (Forall2_nth _ _ _ (proj2 C) _ _ Ei) as (nd & End & (O1 & O2 & O3)). unfold nodeAtIdx. rewrite End. cbn [bind].
  cbn [fst snd] in O1, O2, O3. rewrite isLeaf_nid by lia.
  assert (FL : fullN (lenN L) k q = true) by (eapply full_mono; eauto).
  assert (D : (k =? 0) || negb (isEmpty nd) = true \/ ((k =? 0) || negb (isEmpty nd) = false)) by (destruct (_ || _); auto).
  destruct D as [D|D]; rewrite D.
  - exists c. split; [|exact C]. do 2 f_equal. destruct nd as [lf v]. cbn [fst snd] in *. f_equal; [exact O1|].
    destruct (N.eq_dec k b) as [->|Hkb]; [now apply O3|].
    apply orb_true_iff in D. destruct D as [D|D]; [apply N.eqb_eq in D; lia|].
    destruct O2 as [->|[_ O2]]; [discriminate|exact O2].
  - apply orb_false_iff in D. destruct D as [D1 D2]. apply N.eqb_neq in D1.
    assert (Hkb : k <> b).
    { intros ->. specialize (O3 eq_refl F). unfold isEmpty in D2. rewrite O3 in D2.
      pose proof (V_nonempty b q FL). destruct (V b q); [congruence|discriminate]. }
    destruct (coords_child _ _ _ _ I Hkb) as (k' & -> & Hk' & Il & Ir).
    rewrite left_nid', rightStep_nid' by lia. cbn [bind].
    destruct (full_child _ _ _ F) as [Fl Fr].
    destruct (IH c k' (2 * q) C Il Fl) as (c1 & E1 & C1); [lia|]. rewrite E1. cbn [bind].
    destruct (IH c1 k' (2 * q + 1) C1 Ir Fr) as (c2 & E2 & C2); [lia|]. rewrite E2. cbn [bind].
    rewrite (treeHash_spec _ hs) by (first [exact Hhs | apply V_len; eapply full_mono; eauto]).
    unfold full. cbn [bind].
    change (((if k' =? 0 then x00 else x01) :: V k' (2 * q)) ++ (if k' =? 0 then x00 else x01) :: V k' (2 * q + 1))
      with (tagK k' (V k' (2 * q)) ++ tagK k' (V k' (2 * q + 1))). rewrite <- V_succ.
    destruct (chunkOk_set n b p c2 i (k' + 1, q) (false, V (k' + 1) q) C2 Ei) as (c3 & E3 & C3).
    { repeat split; cbn [fst snd]; auto. lia. }
    rewrite E3. cbn [bind]. exists c3. split; [|exact C3]. replace (k' + 1 =? 0) with false by lia. reflexivity.
Qed.

Lemma okNode_empty n b z nd : okNode n b z nd -> fullN n (fst z) (snd z) = false -> isEmpty nd = true /\ snd nd = [].
Proof. intros (_ & [E|[E _]] & _) F; [|congruence]. unfold isEmpty. now rewrite E. Qed.

Lemma okNode_bottom n b q nd : n <= lenN L -> okNode n b (b, q) nd -> fullN n b q = true -> isEmpty nd = false /\ snd nd = V b q.
Proof.
  intros Hn (_ & _ & O) F. cbn [fst snd] in O. specialize (O eq_refl F). split; [|exact O]. unfold isEmpty. rewrite O.
  pose proof (V_nonempty b q (full_mono _ _ _ _ Hn F)). destruct (V b q); congruence.
Qed.

Lemma marshal_spec n b p c : n <= lenN L -> chunkOk n b p c -> chunkMarshal c = Ok (chunkData f L n b p).
Proof.
  intros Hn [_ F]. destruct (bottoms n b p) as (k & Hk & Hfull). pose proof (fulls_of _ _ _ _ Hfull) as FF. clear Hfull.
  unfold chunkMarshal, coords in *. apply Forall2_15 in F.
  destruct F as (n0 & n1 & n2 & n3 & n4 & n5 & n6 & n7 & n8 & n9 & n10 & n11 & n12 & n13 & n14 & E & A0 & A1 & A2 & A3 & A4 & A5 & A6 & A7 & A8 & A9 & A10 & A11 & A12 & A13 & A14).
  rewrite E. clear E c.
  assert (UP : forall d q o, o < 2 ^ d -> o < 8 -> 2 ^ d * q + o = 8 * p + (2 ^ d * q + o - 8 * p) -> 2 ^ d * q + o - 8 * p < 8 -> k <= 2 ^ d * q + o - 8 * p ->
     fullN n (b + d) q = false).
  { intros d q o H1 H2 H3 H4 H5. apply (full_false_up n b d q o); [|exact H1]. rewrite H3, FF by lia. lia. }
  assert (F0 : fullN n b (8 * p) = (0 <? k)) by (rewrite <- FF by lia; f_equal; lia).
  pose proof (FF 1 ltac:(lia)) as F1. pose proof (FF 2 ltac:(lia)) as F2. pose proof (FF 3 ltac:(lia)) as F3. pose proof (FF 4 ltac:(lia)) as F4.
  pose proof (FF 5 ltac:(lia)) as F5. pose proof (FF 6 ltac:(lia)) as F6. pose proof (FF 7 ltac:(lia)) as F7.
  unfold chunkData. cbn [filter].
  replace (8 * p + 0) with (8 * p) by lia.
  rewrite F0, F1, F2, F3, F4, F5, F6, F7.
  assert (B : forall q nd, okNode n b (b, q) nd -> fullN n b q = true -> isEmpty nd = false /\ snd nd = V b q) by (intros; now apply (okNode_bottom n)).
  assert (U1 : k < 2 -> fullN n (b + 1) (4 * p) = false) by (intro; apply (UP 1 (4 * p) 1); change (2 ^ 1) with 2; lia).
  assert (U3 : k < 4 -> fullN n (b + 2) (2 * p) = false) by (intro; apply (UP 2 (2 * p) 3); change (2 ^ 2) with 4; lia).
  assert (U5 : k < 4 -> fullN n (b + 1) (4 * p + 1) = false) by (intro; apply (UP 1 (4 * p + 1) 1); change (2 ^ 1) with 2; lia).
  assert (U7 : k < 8 -> fullN n (b + 3) p = false) by (intro; apply (UP 3 p 7); change (2 ^ 3) with 8; lia).
  assert (U9 : k < 6 -> fullN n (b + 1) (4 * p + 2) = false) by (intro; apply (UP 1 (4 * p + 2) 1); change (2 ^ 1) with 2; lia).
  assert (U11 : k < 8 -> fullN n (b + 2) (2 * p + 1) = false) by (intro; apply (UP 2 (2 * p + 1) 3); change (2 ^ 2) with 4; lia).
  assert (U13 : k < 8 -> fullN n (b + 1) (4 * p + 3) = false) by (intro; apply (UP 1 (4 * p + 3) 1); change (2 ^ 1) with 2; lia).
  clear FF UP.
  destruct (case9 k Hk) as [->|[->|[->|[->|[->|[->|[->|[->| ->]]]]]]]];
   repeat match goal with H : _ = (?a <? ?b) |- _ => let v := eval vm_compute in (a <? b) in change (a <? b) with v in H end;
   repeat match goal with |- context [?a <? ?b] => let v := eval vm_compute in (a <? b) in change (a <? b) with v end;
   repeat match goal with H : ?a < ?b -> _ |- _ => first [specialize (H ltac:(lia)) | clear H] end;
   repeat match goal with
     | O : okNode _ _ (?k0, ?q0) ?nd, F : fullN _ ?k0 ?q0 = false |- _ => destruct (okNode_empty _ _ _ _ O F) as [? ?]; clear O
     | O : okNode _ _ (?k0, ?q0) ?nd, F : fullN _ ?k0 ?q0 = true |- _ => destruct (B _ _ O F) as [? ?]; clear O
     end;
   cbn [marshalNodes forallb];
   repeat match goal with H : isEmpty ?x = _ |- context [isEmpty ?x] => rewrite H end; cbn [andb bind];
   repeat match goal with H : snd ?x = _ |- context [snd ?x] => rewrite H end;
   cbn [map List.concat]; rewrite ?N.add_0_r, ?app_nil_r; reflexivity.
Qed.

End Hash.
