(** Lemmas: uvarint and tile encoding round-trip. *)
From Verif Require Import Base BaseProofs LogTreeSpec PrefixModel PrefixSpec PrefixProofs.

Lemma land127 x : N.land x 127 = x mod 128.
Proof. change 127 with (N.ones 7). rewrite N.land_ones. reflexivity. Qed.

Lemma lor128 x : x < 128 -> N.lor x 128 = x + 128.
Proof.
  intros L. assert (E : N.land x 128 = 0).
  { apply N.bits_inj_0. intro i. rewrite N.land_spec. change 128 with (2 ^ 7). rewrite N.pow2_bits_eqb.
    destruct (N.eqb_spec 7 i) as [<-|]; [|apply andb_false_r]. rewrite andb_true_r.
    destruct (N.eq_dec x 0) as [->|]; [reflexivity|]. apply N.bits_above_log2. apply N.log2_lt_pow2; [lia|exact L]. }
  rewrite (N.add_nocarry_lxor _ _ E), (N.lxor_lor _ _ E). reflexivity.
Qed.

Lemma split7 x : N.lor (x mod 128) (N.shiftl (N.shiftr x 7) 7) = x.
Proof.
  rewrite <- land127. apply N.bits_inj. intro i. rewrite N.lor_spec, N.land_spec.
  change 127 with (N.ones 7).
  destruct (N.lt_ge_cases i 7) as [L|L].
  - rewrite N.ones_spec_low by exact L. rewrite N.shiftl_spec_low by exact L. rewrite andb_true_r, orb_false_r. reflexivity.
  - rewrite N.ones_spec_high by exact L. rewrite N.shiftl_spec_high' by exact L. rewrite N.shiftr_spec'.
    rewrite andb_false_r. cbn [orb]. f_equal. lia.
Qed.

Lemma shl64_small x s : x * 2 ^ s < two64 -> shl64 x s = N.shiftl x s.
Proof. intros L. unfold shl64. apply N.mod_small. rewrite N.shiftl_mul_pow2. exact L. Qed.

Lemma readUvarintF_put : forall f first s acc x rest,
  s + 7 * N.of_nat f = 70 -> (1 <= f)%nat -> x * 2 ^ s < two64 ->
  readUvarintF f first s acc (putUvarintF f x ++ rest) = Ok (N.lor acc (N.shiftl x s), rest).
Proof.
  induction f as [|f IH]; intros first s acc x rest Es Hf L; [lia|]. cbn [putUvarintF].
  destruct (x <? 128) eqn:E; [apply N.ltb_lt in E|apply N.ltb_ge in E].
  - cbn [app readUvarintF]. rewrite b2n_n2b, (N.mod_small x 256) by lia.
    replace (x <? 128) with true by (symmetry; apply N.ltb_lt; exact E).
    destruct (s =? 63) eqn:E63; [apply N.eqb_eq in E63|]; cbn [andb].
    + subst s. assert (x < 2). { rewrite two64_eq in L. change (2 ^ 64) with (2 * 2 ^ 63) in L. nia. }
      replace (1 <? x) with false by (symmetry; apply N.ltb_ge; lia). rewrite shl64_small by exact L. reflexivity.
    + rewrite shl64_small by exact L. reflexivity.
  - cbn [app readUvarintF]. rewrite land127. rewrite lor128 by (apply N.mod_lt; lia).
    rewrite b2n_n2b. assert (M : x mod 128 < 128) by (apply N.mod_lt; lia).
    rewrite (N.mod_small (x mod 128 + 128) 256) by lia.
    replace (x mod 128 + 128 <? 128) with false by (symmetry; apply N.ltb_ge; lia).
    rewrite land127. replace ((x mod 128 + 128) mod 128) with (x mod 128) by
      (replace (x mod 128 + 128) with (x mod 128 + 1 * 128) by lia; rewrite N.mod_add by lia; rewrite N.mod_mod by lia; reflexivity).
    assert (P : 0 < 2 ^ s) by (apply N.neq_0_lt_0; apply N.pow_nonzero; lia).
    assert (Hs : s < 57).
    { destruct (N.lt_ge_cases s 57) as [Q|Q]; [exact Q|exfalso]. assert (2 ^ 57 <= 2 ^ s) by (apply N.pow_le_mono_r; lia).
      rewrite two64_eq in L. change (2 ^ 64) with (128 * 2 ^ 57) in L. nia. }
    assert (Sh : N.shiftr x 7 * 2 ^ (s + 7) < two64).
    { rewrite N.shiftr_div_pow2, N.pow_add_r. change (2 ^ 7) with 128.
      pose proof (N.mul_div_le x 128 ltac:(lia)). nia. }
    rewrite IH; [|lia|lia|exact Sh].
    f_equal. f_equal. rewrite shl64_small by nia.
    rewrite <- N.lor_assoc. f_equal. rewrite (N.add_comm s 7), <- N.shiftl_shiftl, <- N.shiftl_lor, split7. reflexivity.
Qed.

Lemma readUvarint_put x rest : x < two64 -> readUvarint (putUvarint x ++ rest) = Ok (x, rest).
Proof.
  intros L. unfold readUvarint, putUvarint. rewrite readUvarintF_put; [|reflexivity|lia|rewrite N.pow_0_r; lia].
  rewrite N.shiftl_0_r. reflexivity.
Qed.

Lemma readFull_app a b : readFull (List.length a) (a ++ b) = Ok (a, b).
Proof.
  unfold readFull. rewrite app_length. replace (Nat.leb _ _) with true by (symmetry; apply Nat.leb_le; lia).
  rewrite firstn_app, skipn_app, firstn_all, skipn_all, Nat.sub_diag. cbn. rewrite app_nil_r. reflexivity.
Qed.

Lemma readFull_hs k a b : List.length a = k -> readFull k (a ++ b) = Ok (a, b).
Proof. intros <-. apply readFull_app. Qed.

Section Codec.
Variable H : bytes -> option bytes.
Variable hs : nat.

(** Sizes of the fields, as the decoder expects them. *)
Fixpoint wfNode (n : node) : Prop :=
  match n with
  | Empty => True
  | Leaf v c => List.length v = hs /\ List.length c = hs
  | Parent l r h id => wfNode l /\ wfNode r /\ (forall hh, h = Some hh -> List.length hh = hs) /\
      (forall i, id = Some i -> fst i < two64 /\ snd i < two64)
  | External h id => List.length h = hs /\ fst id < two64 /\ snd id < two64
  end.

Definition okOpt {A} (r : res A) : option A := match r with Ok a => Some a | _ => None end.

(** What decoding gives back: the same tree, cached hashes only at depths 3, 7, 11, ...,
    and the id of the tile on every parent node. *)
Fixpoint norm (d : nat) (id : tileId) (n : node) : node :=
  match n with
  | Parent l r h i =>
      Parent (norm (S d) id l) (norm (S d) id r)
        (if storeIntermediate d then okOpt (nodeHash H hs n) else None) (Some id)
  | _ => n
  end.

Hypothesis Hsized : forall x h, H x = Some h -> List.length h = hs.

Lemma nodeHash_len n h : wfNode n -> nodeHash H hs n = Ok h -> List.length h = hs.
Proof.
  destruct n as [|v c|l r [hh|] id|hh id]; intros W E; cbn in *.
  - injection E as <-. apply repeat_length.
  - unfold hash in E. destruct (H (x02 :: v ++ c)) eqn:Q; [|discriminate E]. injection E as <-. eapply Hsized; eauto.
  - injection E as <-. destruct W as [_ [_ [W _]]]. apply W. reflexivity.
  - apply bind_ok in E. destruct E as [a [_ E]]. apply bind_ok in E. destruct E as [b [_ E]].
    unfold hash in E. destruct (H (x03 :: a ++ b)) eqn:Q; [|discriminate E]. injection E as <-. eapply Hsized; eauto.
  - injection E as <-. apply W.
Qed.

Lemma unmarshal_marshal n : forall d id b fuel rest, wfNode n -> nodeMarshal H hs d n = Ok b ->
  (List.length b < fuel)%nat ->
  unmarshalNode hs fuel id d (b ++ rest) = Ok (norm d id n, rest).
Proof.
  induction n as [|v c|l IHl r IHr h i|h i]; intros d id b fuel rest W M F; (destruct fuel as [|fuel]; [lia|]).
  - injection M as <-. reflexivity.
  - injection M as <-. cbn [unmarshalNode app readByte bind]. change (b2n x01 =? 2) with false.
    change (b2n x01 =? 0) with false. change (b2n x01 =? 1) with true. cbv iota.
    destruct W as [W1 W2]. rewrite <- app_assoc. rewrite (readFull_hs hs v) by exact W1. cbn [bind].
    rewrite (readFull_hs hs c) by exact W2. reflexivity.
  - cbn [nodeMarshal] in M. apply bind_ok in M. destruct M as [hh [M1 M]].
    apply bind_ok in M. destruct M as [bl [Ml M]]. apply bind_ok in M. destruct M as [br [Mr M]]. injection M as <-.
    cbn [unmarshalNode app readByte bind]. change (b2n x02 =? 2) with true. cbv iota.
    destruct W as [Wl [Wr [Wh Wi]]].
    cbn [List.length] in F. rewrite !app_length in F.
    assert (R1 : (if storeIntermediate d
          then (let* (x, y) := readFull hs ((hh ++ bl ++ br) ++ rest) in Ok (Some x, y))
          else Ok (None, (hh ++ bl ++ br) ++ rest))
       = Ok (if storeIntermediate d then okOpt (nodeHash H hs (Parent l r h i)) else None, bl ++ br ++ rest)).
    { destruct (storeIntermediate d).
      - rewrite <- !app_assoc. rewrite (readFull_hs hs hh); [rewrite M1; reflexivity|].
        eapply nodeHash_len; [|exact M1]. split; [exact Wl|split; [exact Wr|split; [exact Wh|exact Wi]]].
      - injection M1 as <-. cbn. rewrite <- app_assoc. reflexivity. }
    match goal with |- bind ?X ?f = _ => let R2 := fresh in pose proof (R1 : X = _) as R2; rewrite R2; clear R1 R2 end.
    cbn [bind]. rewrite (IHl (S d) id bl fuel (br ++ rest) Wl Ml) by lia. cbn [bind].
    rewrite (IHr (S d) id br fuel rest Wr Mr) by lia. reflexivity.
  - injection M as <-. cbn [unmarshalNode app readByte bind]. change (b2n x03 =? 2) with false.
    change (b2n x03 =? 0) with false. change (b2n x03 =? 1) with false. change (b2n x03 =? 3) with true. cbv iota.
    destruct W as [W1 [W2 W3]]. rewrite <- !app_assoc. rewrite (readFull_hs hs h) by exact W1. cbn [bind].
    rewrite (readUvarint_put _ _ W2). cbn [bind]. rewrite (readUvarint_put _ _ W3). cbn [bind]. destruct i; reflexivity.
Qed.

Lemma tile_roundtrip d id n raw : wfNode n -> tileMarshal H hs d n = Ok raw -> tileUnmarshal hs id raw = Ok (d, norm d id n).
Proof.
  intros W M. unfold tileMarshal in M. destruct (Nat.ltb 255 d) eqn:E; [discriminate M|]. apply Nat.ltb_ge in E.
  apply bind_ok in M. destruct M as [b [Mb M]]. injection M as <-.
  unfold tileUnmarshal. cbn [readByte bind].
  assert (D : N.to_nat (b2n (n2b (N.of_nat d))) = d).
  { rewrite b2n_n2b, N.mod_small by lia. apply Nat2N.id. }
  rewrite D. rewrite <- (app_nil_r b) at 1 2.
  rewrite (unmarshal_marshal n d id b _ [] W Mb); [reflexivity|]. rewrite app_nil_r. lia.
Qed.

(** Every parent node has an id. *)
Fixpoint allIds (n : node) : Prop :=
  match n with
  | Parent l r _ id => id <> None /\ allIds l /\ allIds r
  | _ => True
  end.

Lemma norm_allIds n : forall d id, allIds (norm d id n).
Proof. induction n as [|v c|l IHl r IHr h i|h i]; intros d id; cbn; auto. repeat split; auto. discriminate. Qed.

Lemma norm_getAt n : forall q d id m, getAt n q = Some m -> getAt (norm d id n) q = Some (norm (d + List.length q) id m).
Proof.
  induction n as [|v c|l IHl r IHr h i|h i]; intros [|b q] d id m E; cbn [getAt] in E; try discriminate E;
    try (injection E as <-; cbn [List.length]; rewrite Nat.add_0_r; reflexivity).
  cbn [norm getAt List.length]. destruct b; [rewrite (IHr q (S d) id m E)|rewrite (IHl q (S d) id m E)]; do 2 f_equal; lia.
Qed.

End Codec.
