(** Writing to chunks, and reading them back. *)
From Verif Require Import Base BaseProofs LogMathModel LogMathSpec LogTreeModel LogTreeSpec NodeMathProofs LogMathProofs LogMathProofs2 LogTreeProofs LogChunkModel LogChunkSpec LogChunkProofs.

Section Hash.
Variable f : bytes -> bytes.
Variable hs : N.
Hypothesis Hf : forall x, lenN (f x) = hs.
Hypothesis Hhs : 0 < hs.
Variable L : list bytes.
Hypothesis HL : Forall (fun e : bytes => lenN e = hs) L.

Local Notation V := (hval f L).
Local Notation okNode := (okNode f L).
Local Notation chunkOk := (chunkOk f L).

Lemma okNode_mono n b z nd : okNode n b z nd ->
  (fst z = b -> fullN (n + 1) b (snd z) = true -> fullN n b (snd z) = true) -> okNode (n + 1) b z nd.
Proof.
  intros (A & B & C) D. split; [exact A|]. split.
  - destruct B as [B|[B1 B2]]; [now left|]. right. split; [|exact B2]. eapply full_mono; [|exact B1]. lia.
  - intros E F. apply C; [exact E|]. rewrite E in F |- *. now apply D.
Qed.

Lemma okNode_clear n b z nd : okNode n b z nd -> fst z <> b -> okNode (n + 1) b z (fst nd, []).
Proof. intros (A & B & C) D. split; [exact A|]. split; [now left|]. intro E. contradiction. Qed.

Lemma okNode_top n b d q nd : 0 < d -> okNode n b (b + d, q) nd -> okNode (n + 1) b (b + d, q) nd.
Proof. intros Hd O. apply (okNode_mono n); [exact O|]. cbn [fst]. lia. Qed.

Lemma full_exact n b q q' : (q + 1) * 2 ^ b = n + 1 -> q' <> q -> fullN (n + 1) b q' = true -> fullN n b q' = true.
Proof. rewrite !full_iff. intros E D F. rewrite <- E in F. pose proof (pow2_pos b). nia. Qed.

(** The chunk after writing bottom node [o]: what is above it is cleared. *)
Definition cleared (o : N) (v n0 n1 n2 n3 n4 n5 n6 n7 n8 n9 n10 n11 n12 n13 n14 : nodeData) : list nodeData :=
  match o with
  | 0 => [v; (fst n1, []); n2; (fst n3, []); n4; n5; n6; (fst n7, []); n8; n9; n10; n11; n12; n13; n14]
  | 1 => [n0; (fst n1, []); v; (fst n3, []); n4; n5; n6; (fst n7, []); n8; n9; n10; n11; n12; n13; n14]
  | 2 => [n0; n1; n2; (fst n3, []); v; (fst n5, []); n6; (fst n7, []); n8; n9; n10; n11; n12; n13; n14]
  | 3 => [n0; n1; n2; (fst n3, []); n4; (fst n5, []); v; (fst n7, []); n8; n9; n10; n11; n12; n13; n14]
  | 4 => [n0; n1; n2; n3; n4; n5; n6; (fst n7, []); v; (fst n9, []); n10; (fst n11, []); n12; n13; n14]
  | 5 => [n0; n1; n2; n3; n4; n5; n6; (fst n7, []); n8; (fst n9, []); v; (fst n11, []); n12; n13; n14]
  | 6 => [n0; n1; n2; n3; n4; n5; n6; (fst n7, []); n8; n9; n10; (fst n11, []); v; (fst n13, []); n14]
  | _ => [n0; n1; n2; n3; n4; n5; n6; (fst n7, []); n8; n9; n10; (fst n11, []); n12; (fst n13, []); v]
  end.

Lemma cleared_spec o v n0 n1 n2 n3 n4 n5 n6 n7 n8 n9 n10 n11 n12 n13 n14 ids : o < 8 ->
  (let* c1 := setIdx {| ch_ids := ids; ch_nodes := [n0; n1; n2; n3; n4; n5; n6; n7; n8; n9; n10; n11; n12; n13; n14] |} (2 * N.to_nat o) v in clearUp 5 c1 (2 * N.to_nat o))
  = Ok {| ch_ids := ids; ch_nodes := cleared o v n0 n1 n2 n3 n4 n5 n6 n7 n8 n9 n10 n11 n12 n13 n14 |}.
Proof.
  intro Ho. assert (o = 0 \/ o = 1 \/ o = 2 \/ o = 3 \/ o = 4 \/ o = 5 \/ o = 6 \/ o = 7) as D by lia.
  destruct D as [->|[->|[->|[->|[->|[->|[->| ->]]]]]]]; vm_compute; reflexivity.
Qed.

Lemma set_spec n b p o c : b <= 60 -> chunkOk n b p c -> o < 8 -> (8 * p + o + 1) * 2 ^ b = n + 1 ->
  exists c', chunkSetNode c (nid b (8 * p + o)) (b =? 0, V b (8 * p + o)) = Ok c' /\ chunkOk (n + 1) b p c'.
Proof.
  intros Hb [Ei F] Ho E. unfold chunkSetNode, findIndex.
  assert (I : findIndexFrom 0 (ch_ids c) (nid b (8 * p + o)) = Ok (2 * N.to_nat o)%nat).
  { rewrite Ei. rewrite (findIndex_spec _ _ (coords_NoDup b p) (2 * N.to_nat o)); [reflexivity|].
    rewrite nth_error_map.
    assert (o = 0 \/ o = 1 \/ o = 2 \/ o = 3 \/ o = 4 \/ o = 5 \/ o = 6 \/ o = 7) as D by lia.
    destruct D as [->|[->|[->|[->|[->|[->|[->| ->]]]]]]]; try reflexivity.
    rewrite N.add_0_r. reflexivity. }
  rewrite I. cbn [bind]. clear I.
  assert (Fn : fullN (n + 1) b (8 * p + o) = true) by (rewrite full_iff; lia).
  assert (X : okNode (n + 1) b (b, 8 * p + o) (b =? 0, V b (8 * p + o))).
  { split; [reflexivity|]. split; [right; split; [exact Fn|reflexivity]|]. reflexivity. }
  assert (Y : forall q' nd, okNode n b (b, q') nd -> q' <> 8 * p + o -> okNode (n + 1) b (b, q') nd).
  { intros q' nd O D. apply (okNode_mono n); [exact O|]. cbn [fst snd]. intros _. now apply (full_exact n b (8 * p + o)). }
  assert (T : forall d q' nd, 0 < d -> okNode n b (b + d, q') nd -> okNode (n + 1) b (b + d, q') nd) by (intros; now apply okNode_top).
  assert (W : forall d q' nd, 0 < d -> okNode n b (b + d, q') nd -> okNode (n + 1) b (b + d, q') (fst nd, [])).
  { intros d q' nd Hd O. apply (okNode_clear n); [exact O|]. cbn [fst]. lia. }
  destruct c as [ids nodes]. cbn [ch_ids ch_nodes] in *. subst ids.
  unfold coords in F. apply Forall2_15 in F.
  destruct F as (n0 & n1 & n2 & n3 & n4 & n5 & n6 & n7 & n8 & n9 & n10 & n11 & n12 & n13 & n14 & En & A0 & A1 & A2 & A3 & A4 & A5 & A6 & A7 & A8 & A9 & A10 & A11 & A12 & A13 & A14).
  subst nodes.
  assert (o = 0 \/ o = 1 \/ o = 2 \/ o = 3 \/ o = 4 \/ o = 5 \/ o = 6 \/ o = 7) as D by lia.
  rewrite cleared_spec by exact Ho. eexists. split; [reflexivity|]. split; [reflexivity|]. cbn [ch_nodes].
  destruct D as [->|[->|[->|[->|[->|[->|[->| ->]]]]]]]; unfold cleared, coords;
  rewrite ?N.add_0_r in *;
  repeat (apply Forall2_cons; [first [assumption | apply Y; [assumption|lia] | apply T; [lia|assumption] | apply W; [lia|assumption]]|]); constructor.
Qed.

Lemma other_spec n b p c : chunkOk n b p c -> (forall o, o < 8 -> (8 * p + o + 1) * 2 ^ b <> n + 1) -> chunkOk (n + 1) b p c.
Proof.
  intros [Ei F] D. split; [exact Ei|]. 
  assert (G : forall z nd, In z (coords b p) -> okNode n b z nd -> okNode (n + 1) b z nd).
  { intros [k q] nd I O. apply (okNode_mono n); [exact O|]. cbn [fst snd]. intros -> Fu.
    assert (exists o, o < 8 /\ q = 8 * p + o) as (o & Ho & ->).
    { exists (q - 8 * p). unfold coords in I. repeat (destruct I as [I|I]; [apply pair_equal_spec in I; lia|]). destruct I. }
    specialize (D o Ho). rewrite full_iff in *. lia. }
  revert F G. generalize (ch_nodes c) (coords b p). induction 1 as [|z nd zs nds O F IH]; intro G; constructor.
  - apply G; [now left|exact O].
  - apply IH. intros; apply G; [now right|assumption].
Qed.

(** Reading a chunk back. *)
Definition addNode (lf : bool) (nodes : list nodeData) (v : bytes) : list nodeData :=
  (match nodes with [] => [] | _ => nodes ++ [(false, [])] end) ++ [(lf, v)].

Lemma parse_vals lf vals : Forall (fun v : bytes => lenN v = hs) vals -> forall fuel nodes, (List.length (List.concat vals) < fuel)%nat ->
  parseNodes hs fuel lf nodes (List.concat vals) = Ok (fold_left (addNode lf) vals nodes).
Proof.
  induction 1 as [|v vals Hv F IH]; intros fuel nodes Hfu; [now destruct fuel|].
  cbn [List.concat] in *. destruct fuel as [|fuel]; [lia|]. 
  destruct v as [|x v]; [unfold lenN in Hv; cbn in Hv; lia|].
  cbn [app parseNodes]. change (x :: v ++ List.concat vals) with ((x :: v) ++ List.concat vals).
  rewrite lenN_app. replace (lenN (x :: v) + lenN (List.concat vals) <? hs) with false by lia.
  assert (E : N.to_nat hs = List.length (x :: v)) by (unfold lenN in Hv; lia).
  rewrite E, firstn_app, Nat.sub_diag, firstn_all, skipn_app, Nat.sub_diag, skipn_all. cbn [firstn skipn app].
  rewrite app_nil_r. rewrite IH.
  - cbn [fold_left]. f_equal.
  - cbn [List.length app] in Hfu. rewrite app_length in Hfu. lia.
Qed.

Lemma newChunk_spec n b p : n <= lenN L -> b <= 60 ->
  exists c, newChunk hs (nid (b + 3) p) (chunkData f L n b p) = Ok c /\ chunkOk n b p c.
Proof.
  intros Hn Hb. unfold newChunk. rewrite chunkIds_spec by lia. cbn [bind].
  rewrite level_nid by lia. replace (b + 3 =? 3) with (b =? 0) by lia.
  destruct (bottoms n b p) as (k & Hk & Hfull). pose proof (fulls_of _ _ _ _ Hfull) as FF. clear Hfull.
  unfold chunkData. rewrite parse_vals; [| |lia].
  2:{ rewrite Forall_forall. intros v I. apply in_map_iff in I as (o & <- & I). apply filter_In in I as [_ I].
      apply (V_len f hs); auto. eapply full_mono; eauto. }
  cbn [bind].
  assert (IL : map (fun x => (isLeaf x, @nil byte)) (map nidp (coords b p)) = map (fun z : N * N => (fst z =? 0, [])) (coords b p)).
  { rewrite map_map. apply map_ext_in. intros [kk q] I. unfold nidp. cbn [fst snd]. f_equal. apply isLeaf_nid.
    apply coords_level in I. lia. }
  rewrite <- skipn_map, IL, skipn_map.
  assert (F0 : fullN n b (8 * p) = (0 <? k)) by (rewrite <- FF by lia; f_equal; lia).
  pose proof (FF 1 ltac:(lia)) as F1. pose proof (FF 2 ltac:(lia)) as F2. pose proof (FF 3 ltac:(lia)) as F3. pose proof (FF 4 ltac:(lia)) as F4.
  pose proof (FF 5 ltac:(lia)) as F5. pose proof (FF 6 ltac:(lia)) as F6. pose proof (FF 7 ltac:(lia)) as F7.
  cbn [filter]. replace (8 * p + 0) with (8 * p) by lia.
  rewrite F0, F1, F2, F3, F4, F5, F6, F7.
  assert (BF : forall q, fullN n b q = true -> okNode n b (b, q) (b =? 0, V b q)).
  { intros q Fq. split; [reflexivity|]. split; [right; split; [exact Fq|reflexivity]|]. reflexivity. }
  assert (BE : forall q, fullN n b q = false -> okNode n b (b, q) (b =? 0, [])).
  { intros q Fq. split; [reflexivity|]. split; [now left|]. cbn [fst snd]. congruence. }
  assert (UE : forall d q, 0 < d -> okNode n b (b + d, q) (b + d =? 0, [])).
  { intros d q Hd. split; [reflexivity|]. split; [now left|]. cbn [fst snd]. lia. }
  assert (UF : forall d q, 0 < d -> okNode n b (b + d, q) (false, [])).
  { intros d q Hd. split; [cbn [fst]; lia|]. split; [now left|]. cbn [fst snd]. lia. }
  clear FF IL.
  destruct (case9 k Hk) as [->|[->|[->|[->|[->|[->|[->|[->| ->]]]]]]]];
   repeat match goal with H : _ = (?a <? ?b) |- _ => let v := eval vm_compute in (a <? b) in change (a <? b) with v in H end;
   repeat match goal with |- context [?a <? ?b] => let v := eval vm_compute in (a <? b) in change (a <? b) with v end;
   cbn [map fold_left addNode app List.length Nat.ltb Nat.leb skipn coords fst snd];
   (eexists; split; [reflexivity|]); (split; [reflexivity|]); cbn [ch_nodes]; unfold coords; rewrite ?N.add_0_r in *;
   repeat (apply Forall2_cons; [first [apply BF; assumption | apply BE; assumption | apply UE; lia | apply UF; lia]|]); constructor.
Qed.

End Hash.

(** The chunk of a node. *)
Definition bot (k : N) : N := 4 * (k / 4).
Definition pos (k q : N) : N := q / 2 ^ (3 - k mod 4).

Lemma chunk_loop_spec fuel k q : k <= 63 -> nid k q < two64 - 1 -> 3 - k mod 4 < N.of_nat fuel ->
  chunk_loop fuel (nid k q) = Ok (nid (bot k + 3) (pos k q)).
Proof.
  revert k q. induction fuel as [|fuel IH]; intros k q Hk Hq Hfu; [lia|]. cbn [chunk_loop].
  rewrite level_nid by lia. pose proof (N.div_mod k 4 ltac:(lia)) as D. pose proof (N.mod_lt k 4 ltac:(lia)) as M.
  unfold bot, pos. destruct (N.eqb_spec (k mod 4) 3) as [E|E].
  - rewrite E. cbn [N.sub N.pow]. change (2 ^ (3 - 3)) with 1. rewrite N.div_1_r. do 2 f_equal. lia.
  - rewrite parentStep_nid by lia. 
    assert (K1 : (k + 1) mod 4 = k mod 4 + 1) by (rewrite (N.mod_unique (k + 1) 4 (k / 4) (k mod 4 + 1)); lia).
    assert (K2 : (k + 1) / 4 = k / 4) by (rewrite <- (N.div_unique (k + 1) 4 (k / 4) (k mod 4 + 1)); lia).
    assert (K63 : k <= 62).
    { destruct (N.eq_dec k 63) as [->|]; [|lia]. exfalso. apply E. reflexivity. }
    rewrite IH.
    + unfold bot, pos. rewrite K1, K2. do 2 f_equal. rewrite N.div_div by (try lia; pose proof (pow2_pos (3 - (k mod 4 + 1))); lia).
      f_equal. rewrite <- pow2_S. f_equal. lia.
    + lia.
    + rewrite <- parentStep_nid by lia. apply parentStep_spec; [exact Hq|]. rewrite level_nid; lia.
    + lia.
Qed.

Lemma chunk_nid k q : k <= 63 -> nid k q < two64 - 1 -> chunk (nid k q) = Ok (nid (bot k + 3) (pos k q)).
Proof. intros Hk Hq. unfold chunk. apply chunk_loop_spec; auto. lia. Qed.

Lemma bot_props k : bot k mod 4 = 0 /\ bot k <= k <= bot k + 3.
Proof.
  unfold bot. rewrite N.mul_comm, N.mod_mul by lia. pose proof (N.div_mod k 4 ltac:(lia)). pose proof (N.mod_lt k 4 ltac:(lia)). lia.
Qed.

Lemma bot_mult b : b mod 4 = 0 -> bot b = b.
Proof. intro H. unfold bot. pose proof (N.div_mod b 4 ltac:(lia)). lia. Qed.

Lemma bot_add b d : b mod 4 = 0 -> d < 4 -> bot (b + d) = b /\ (b + d) mod 4 = d.
Proof.
  intros H Hd. pose proof (N.div_mod b 4 ltac:(lia)) as D. rewrite H in D. unfold bot.
  rewrite <- (N.div_unique (b + d) 4 (b / 4) d) by lia. rewrite <- (N.mod_unique (b + d) 4 (b / 4) d) by lia. lia.
Qed.

Lemma coords_of k q : In (k, q) (coords (bot k) (pos k q)).
Proof.
  destruct (bot_props k) as [B1 B2]. remember (bot k) as b eqn:Eb. remember (k - b) as d eqn:Ed.
  assert (Hd : d < 4) by lia. assert (Ek : k = b + d) by lia. rewrite Ek. unfold pos.
  destruct (bot_add b d B1 Hd) as [_ ->]. clear Eb Ed Ek B1 B2 k.
  assert (E : forall a a' c c' : N, a = a' -> c = c' -> (a, c) = (a', c')) by congruence.
  assert (D : d = 0 \/ d = 1 \/ d = 2 \/ d = 3) by lia. destruct D as [->|[->|[->| ->]]].
  - change (2 ^ (3 - 0)) with 8. pose proof (N.div_mod q 8 ltac:(lia)) as D. pose proof (N.mod_lt q 8 ltac:(lia)) as M.
    set (p := q / 8) in *. set (o := q mod 8) in *. clearbody p o. subst q.
    assert (D : o = 0 \/ o = 1 \/ o = 2 \/ o = 3 \/ o = 4 \/ o = 5 \/ o = 6 \/ o = 7) by lia.
    rewrite N.add_0_r. unfold coords; destruct D as [->|[->|[->|[->|[->|[->|[->| ->]]]]]]]; cbn [In]; repeat first [left; apply E; lia | right].
  - change (2 ^ (3 - 1)) with 4. pose proof (N.div_mod q 4 ltac:(lia)) as D. pose proof (N.mod_lt q 4 ltac:(lia)) as M.
    set (p := q / 4) in *. set (o := q mod 4) in *. clearbody p o. subst q.
    assert (D : o = 0 \/ o = 1 \/ o = 2 \/ o = 3) by lia.
    unfold coords; destruct D as [->|[->|[->| ->]]]; cbn [In]; repeat first [left; apply E; lia | right].
  - change (2 ^ (3 - 2)) with 2. pose proof (N.div_mod q 2 ltac:(lia)) as D. pose proof (N.mod_lt q 2 ltac:(lia)) as M.
    set (p := q / 2) in *. set (o := q mod 2) in *. clearbody p o. subst q.
    assert (D : o = 0 \/ o = 1) by lia.
    unfold coords; destruct D as [->| ->]; cbn [In]; repeat first [left; apply E; lia | right].
  - change (2 ^ (3 - 3)) with 1. rewrite N.div_1_r. unfold coords. cbn [In]; repeat first [left; apply E; lia | right].
Qed.
