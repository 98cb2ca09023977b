(** Sets of chunks. *)
From Verif Require Import Base BaseProofs LogMathModel LogMathSpec LogTreeModel LogTreeSpec NodeMathProofs LogMathProofs LogMathProofs2 LogTreeProofs LogChunkModel LogChunkSpec LogChunkProofs LogChunkProofs2 LogChunkProofs3.

Lemma nid_full_lt n k q : n <= two63 -> fullN n k q = true -> nid k q < two64 - 1 /\ k <= 63.
Proof.
  intros Hn F. apply full_iff in F. pose proof (pow2_pos k) as P. split.
  - unfold nid, two63, two64 in *. nia.
  - destruct (N.le_gt_cases k 63); auto. exfalso. assert (2 ^ 64 <= 2 ^ k) by (apply N.pow_le_mono_r; lia).
    change (2 ^ 64) with 18446744073709551616 in *. unfold two63 in *. nia.
Qed.

Lemma full_bottom n k q : fullN n k q = true -> fullN n (bot k) (8 * pos k q) = true.
Proof.
  rewrite !full_iff. intro F. destruct (bot_props k) as [B1 B2]. set (b := bot k) in *.
  assert (Hd : k - b < 4) by lia. replace k with (b + (k - b)) in * by lia. set (d := k - b) in *. clearbody d. unfold pos. assert (Hd' : d < 4) by lia.
  destruct (bot_add b d B1 Hd') as [_ ->]. rewrite N.pow_add_r in F.
  pose proof (pow2_pos b) as P. pose proof (pow2_pos (3 - d)) as P2. pose proof (pow2_pos d) as P3.
  pose proof (N.mul_div_le q (2 ^ (3 - d)) ltac:(lia)) as M. set (p := q / 2 ^ (3 - d)) in *. clearbody p.
  assert (E8 : 8 = 2 ^ d * 2 ^ (3 - d)) by (rewrite <- N.pow_add_r; replace (d + (3 - d)) with 3 by lia; reflexivity).
  assert (G : 8 * p + 1 <= 2 ^ d * (q + 1)).
  { rewrite E8. set (A := 2 ^ d) in *. set (B := 2 ^ (3 - d)) in *. clearbody A B. nia. }
  set (A := 2 ^ d) in *. set (P0 := 2 ^ b) in *. clearbody A P0. nia.
Qed.

Lemma mget_mhas {A} (m : list (N * A)) k : mhas m k = true <-> mget m k <> None.
Proof. unfold mhas. destruct (mget m k); split; congruence. Qed.

Lemma mhas_mput {A} (m : list (N * A)) k v : mhas m k = true -> forall x, mhas (mput m k v) x = mhas m x.
Proof.
  intros Hk x. unfold mhas in *. destruct (N.eq_dec k x) as [->|Hne].
  - rewrite mget_mput_eq. destruct (mget m x); congruence.
  - now rewrite mget_mput_neq.
Qed.

Lemma bot_le60 k : k <= 63 -> bot k <= 60.
Proof. intro Hk. unfold bot. assert (k / 4 < 16) by (apply N.div_lt_upper_bound; lia). lia. Qed.

Lemma edge_pos n b : b mod 4 = 0 -> bot b = b /\ pos b (n / 2 ^ b) = n / 2 ^ (b + 3).
Proof.
  intro Hb. split; [now apply bot_mult|]. unfold pos. rewrite Hb. change (3 - 0) with 3.
  rewrite N.div_div by (try (pose proof (pow2_pos b); lia); discriminate). now rewrite <- N.pow_add_r.
Qed.

Section Hash.
Variable f : bytes -> bytes.
Variable hs : N.
Hypothesis Hf : forall x, lenN (f x) = hs.
Hypothesis Hhs : 0 < hs.
Variable L : list bytes.
Hypothesis HL : Forall (fun e : bytes => lenN e = hs) L.
Variable n : N.

Local Notation V := (hval f L).
Local Notation chunkOk := (chunkOk f L).

Definition sizeAt (t b : N) : N := if b <? t then n + 1 else n.

(** Rows below level [t] are those of [n + 1] entries, the others still those of [n]. *)
Definition setInv (t : N) (s : chunkSet) : Prop :=
  forall id c, mget (cs_chunks s) id = Some c ->
    exists b p, id = nid (b + 3) p /\ b mod 4 = 0 /\ b <= 60 /\ chunkOk (sizeAt t b) b p c.

Definition has (s : chunkSet) (id : N) : Prop := mhas (cs_chunks s) id = true.

Lemma setInv_put t s id c b p ms : setInv t s -> id = nid (b + 3) p -> b mod 4 = 0 -> b <= 60 -> chunkOk (sizeAt t b) b p c ->
  setInv t {| cs_chunks := mput (cs_chunks s) id c; cs_modified := ms |}.
Proof.
  intros I Ei Hb Hb60 C id' c' G. cbn [cs_chunks] in G. destruct (N.eq_dec id id') as [<-|Hne].
  - rewrite mget_mput_eq in G. injection G as <-. exists b, p. auto.
  - rewrite mget_mput_neq in G by auto. now apply I.
Qed.

Lemma setInv_at t s id c k q : setInv t s -> mget (cs_chunks s) id = Some c -> id = nid (bot k + 3) (pos k q) ->
  chunkOk (sizeAt t (bot k)) (bot k) (pos k q) c.
Proof.
  intros I G E0. destruct (I _ _ G) as (b & p & E1 & Hb & Hb60 & C). rewrite E0 in E1. apply nid_inj in E1. destruct E1 as [E1 E2].
  assert (b = bot k) by lia. subst b. now rewrite E2.
Qed.

Lemma setGet_spec t s k q : n + 1 <= lenN L \/ (t = 0 /\ n <= lenN L) -> lenN L <= two63 -> setInv t s -> has s (nid (bot k + 3) (pos k q)) ->
  fullN (sizeAt t (bot k)) k q = true ->
  exists s', setGet (full f) s (nid k q) = Ok ((k =? 0, V k q), s') /\ setInv t s' /\
    (forall id, has s' id <-> has s id) /\ cs_modified s' = cs_modified s.
Proof.
  intros Hn HL63 I Hh F.
  assert (Hsz : sizeAt t (bot k) <= lenN L) by (unfold sizeAt; destruct (N.ltb_spec (bot k) t); lia).
  destruct (nid_full_lt (lenN L) k q HL63) as [B1 B2]; [eapply full_mono; eauto|].
  unfold setGet. rewrite chunk_nid by auto. cbn [bind].
  apply mget_mhas in Hh. destruct (mget (cs_chunks s) (nid (bot k + 3) (pos k q))) as [c|] eqn:G; [|congruence].
  pose proof (setInv_at t s _ c k q I G eq_refl) as C. destruct (bot_props k) as [P1 P2].
  destruct (get_spec f hs Hf Hhs L HL (sizeAt t (bot k)) (bot k) (pos k q) Hsz (bot_le60 k B2) 5 c k q C (coords_of k q) F) as (c' & E1 & C'); [lia|].
  rewrite E1. cbn [bind]. eexists. split; [reflexivity|]. split; [|split; [|reflexivity]].
  - eapply setInv_put; eauto using bot_le60.
  - intro id. unfold has. cbn [cs_chunks]. rewrite mhas_mput; [reflexivity|]. unfold mhas. now rewrite G.
Qed.

Lemma sizeAt_step t b : t mod 4 = 0 -> b mod 4 = 0 -> b <> t -> sizeAt (t + 4) b = sizeAt t b.
Proof.
  intros Ht Hb Hne. unfold sizeAt.
  assert (D : b < t \/ t + 4 <= b).
  { pose proof (N.div_mod b 4 ltac:(lia)). pose proof (N.div_mod t 4 ltac:(lia)). lia. }
  destruct D; replace (b <? t + 4) with (b <? t) by lia; reflexivity.
Qed.

Lemma sizeAt_old b : sizeAt b b = n.
Proof. unfold sizeAt. now rewrite N.ltb_irrefl. Qed.
Lemma sizeAt_new b : sizeAt (b + 4) b = n + 1.
Proof. unfold sizeAt. now replace (b <? b + 4) with true by lia. Qed.

(** Nothing in row [b] becomes full. *)
Lemma row_skip b s : b mod 4 = 0 -> fullLv n b = false -> setInv b s -> setInv (b + 4) s.
Proof.
  intros Hb F I id c G. destruct (I _ _ G) as (b' & p & E0 & H1 & H2 & C). exists b', p. split; [exact E0|]. split; [exact H1|]. split; [exact H2|].
  destruct (N.eq_dec b' b) as [->|Hne]; [|now rewrite sizeAt_step].
  rewrite sizeAt_new. rewrite sizeAt_old in C. apply (other_spec f hs Hhs); [exact C|]. intros o Ho E1.
  unfold fullLv in F. apply N.eqb_neq in F. apply F. rewrite <- E1. f_equal. f_equal.
  pose proof (pow2_pos b). symmetry. apply (N.div_unique n (2 ^ b) (8 * p + o) (2 ^ b - 1)); nia.
Qed.

(** The node of row [b] on the edge becomes full. *)
Lemma row_set b s : n < two63 -> b mod 4 = 0 -> b <= 60 -> fullLv n b = true -> setInv b s -> has s (nid (b + 3) (n / 2 ^ (b + 3))) ->
  exists s', setSet s (E n b) (b =? 0, V b (n / 2 ^ b)) = Ok s' /\ setInv (b + 4) s' /\ (forall id, has s' id <-> has s id) /\
    cs_modified s' = nid (b + 3) (n / 2 ^ (b + 3)) :: cs_modified s.
Proof.
  intros Hn Hb Hb60 F I Hh. unfold setSet, E. pose proof (E_lt64 n Hn b ltac:(lia)) as B. unfold E in B.
  rewrite chunk_nid by (auto; lia). cbn [bind]. destruct (edge_pos n b Hb) as [-> ->].
  apply mget_mhas in Hh. destruct (mget (cs_chunks s) _) as [c|] eqn:G; [|congruence].
  destruct (I _ _ G) as (b' & p & E0 & H1 & H2 & C). apply nid_inj in E0. destruct E0 as [E0 E1].
  assert (b' = b) by lia. subst b' p. rewrite sizeAt_old in C.
  set (q := n / 2 ^ b) in *. set (p := n / 2 ^ (b + 3)) in *.
  assert (Ep : p = q / 8).
  { unfold p, q. rewrite N.div_div by (try (pose proof (pow2_pos b); lia); discriminate). now rewrite N.pow_add_r. }
  pose proof (N.div_mod q 8 ltac:(lia)) as D. pose proof (N.mod_lt q 8 ltac:(lia)) as M. rewrite <- Ep in D.
  unfold fullLv in F. fold q in F. apply N.eqb_eq in F.
  destruct (set_spec f hs Hhs L n b p (q mod 8) c Hb60 C M) as (c' & E2 & C'); [now rewrite <- D|].
  rewrite <- D in E2. rewrite E2. cbn [bind]. eexists. split; [reflexivity|]. split; [|split; [|reflexivity]].
  - intros id c2 G2. cbn [cs_chunks] in G2. destruct (N.eq_dec (nid (b + 3) p) id) as [<-|Hne].
    + rewrite mget_mput_eq in G2. injection G2 as <-. exists b, p. rewrite sizeAt_new. auto.
    + rewrite mget_mput_neq in G2 by auto. destruct (I _ _ G2) as (b' & p' & E3 & H3 & H4 & C2). exists b', p'.
      split; [exact E3|]. split; [exact H3|]. split; [exact H4|].
      destruct (N.eq_dec b' b) as [->|Hne2]; [|now rewrite sizeAt_step].
      rewrite sizeAt_new. rewrite sizeAt_old in C2. apply (other_spec f hs Hhs); [exact C2|]. intros o Ho E4.
      apply Hne. rewrite E3. f_equal. rewrite <- F in E4. pose proof (pow2_pos b) as P.
      apply N.mul_cancel_r in E4; [|lia]. lia.
  - intro id. unfold has. cbn [cs_chunks]. rewrite mhas_mput; [reflexivity|]. unfold mhas. now rewrite G.
Qed.

(** log.go:141-145 *)
Lemma setPath_spec : n < two63 -> n + 1 <= lenN L <= two63 -> forall m b s, b mod 4 = 0 -> 4 <= b -> b + 4 * N.of_nat m = 64 -> setInv b s ->
  (forall b', b' mod 4 = 0 -> fullLv n b' = true -> b' <= 60 -> has s (nid (b' + 3) (n / 2 ^ (b' + 3)))) ->
  (forall j, N.testbit n j = true -> has s (nid (bot j + 3) (pos j (n / 2 ^ j - 1)))) ->
  exists s', setPath (full f) s (map (E n) (filter (fullLv n) (rowsF b m))) = Ok s' /\ setInv 64 s' /\ (forall id, has s' id <-> has s id) /\
    (forall id, In id (cs_modified s') <-> In id (cs_modified s) \/ exists b', In b' (filter (fullLv n) (rowsF b m)) /\ id = nid (b' + 3) (n / 2 ^ (b' + 3))).
Proof.
  intros Hn HnL. induction m as [|m IH]; intros b s Hb Hb4 Hm I HP HC; cbn [rowsF filter map].
  - exists s. split; [reflexivity|]. split; [replace 64 with b by lia; exact I|]. split; [reflexivity|].
    intro id. split; [now left|]. intros [?|(b' & [] & _)]; auto.
  - assert (Hb' : (b + 4) mod 4 = 0).
    { pose proof (N.div_mod b 4 ltac:(lia)) as D. symmetry. apply (N.mod_unique _ 4 (b / 4 + 1)); lia. }
    destruct (fullLv n b) eqn:F.
    2:{ destruct (IH (b + 4) s) as (s' & A1 & A2 & A3 & A4); auto; try lia. { now apply row_skip. } exists s'. auto. }
    assert (B60 : b <= 60) by lia.
    cbn [map setPath]. unfold E at 1 2.
    assert (EK : b = b - 1 + 1) by lia. 
    assert (EL : left (nid b (n / 2 ^ b)) = Ok (nid (b - 1) (2 * (n / 2 ^ b)))) by (rewrite left_nid by lia; reflexivity).
    assert (ER : rightStep (nid b (n / 2 ^ b)) = Ok (nid (b - 1) (2 * (n / 2 ^ b) + 1))) by (rewrite rightStep_nid by lia; reflexivity).
    rewrite EL, ER. cbn [bind]. clear EL ER.
    assert (T : N.testbit n (b - 1) = true) by (apply fullLv_bit; auto; lia).
    assert (Q1 : n / 2 ^ (b - 1) = 2 * (n / 2 ^ b) + 1).
    { rewrite testbit_div in T. apply N.eqb_eq in T. pose proof (N.div_mod (n / 2 ^ (b - 1)) 2 ltac:(lia)) as D. rewrite T in D.
      rewrite D at 1. rewrite <- div_S by exact Hn. now rewrite <- EK. }
    assert (M4 : (b - 4) mod 4 = 0).
    { pose proof (N.div_mod b 4 ltac:(lia)) as D. symmetry. apply (N.mod_unique _ 4 (b / 4 - 1)); lia. }
    destruct (bot_add (b - 4) 3 M4) as [Bo Bm]; [lia|]. replace (b - 4 + 3) with (b - 1) in Bo, Bm by lia.
    assert (SZ : sizeAt b (bot (b - 1)) = n + 1) by (rewrite Bo; unfold sizeAt; now replace (b - 4 <? b) with true by lia).
    pose proof (pow2_pos (b - 1)) as PB.
    assert (F1 : (n / 2 ^ b + 1) * (2 * 2 ^ (b - 1)) = n + 1).
    { unfold fullLv in F. apply N.eqb_eq in F. rewrite <- pow2_S, <- EK. exact F. }
    destruct (setGet_spec b s (b - 1) (2 * (n / 2 ^ b))) as (s1 & G1 & I1 & H1 & M1); [lia|lia|exact I| | |].
    { specialize (HC (b - 1) T). rewrite Q1 in HC. rewrite N.add_sub in HC. exact HC. }
    { rewrite SZ, full_iff. clear -F1 PB. revert F1 PB. generalize (n / 2 ^ b), (2 ^ (b - 1)). intros; nia. }
    rewrite G1. cbn [bind].
    destruct (setGet_spec b s1 (b - 1) (2 * (n / 2 ^ b) + 1)) as (s2 & G2 & I2 & H2 & M2); [lia|lia|exact I1| | |].
    { apply H1. rewrite <- Q1. unfold pos. rewrite Bo, Bm. change (2 ^ (3 - 3)) with 1. rewrite N.div_1_r.
      replace (b - 1) with (b - 4 + 3) by lia. apply HP; [exact M4| |lia]. eapply fullLv_down; eauto. lia. }
    { rewrite SZ, full_iff. clear -F1 PB. revert F1 PB. generalize (n / 2 ^ b), (2 ^ (b - 1)). intros; nia. }
    rewrite G2. cbn [bind].
    rewrite (treeHash_spec _ hs) by (first [exact Hhs | apply (V_len f hs); auto; rewrite full_iff; clear -F1 PB HnL; revert F1 PB; generalize (n / 2 ^ b), (2 ^ (b - 1)); intros; nia]).
    unfold full at 1. cbn [bind].
    change (((if b - 1 =? 0 then x00 else x01) :: V (b - 1) (2 * (n / 2 ^ b))) ++ (if b - 1 =? 0 then x00 else x01) :: V (b - 1) (2 * (n / 2 ^ b) + 1))
      with (tagK (b - 1) (V (b - 1) (2 * (n / 2 ^ b))) ++ tagK (b - 1) (V (b - 1) (2 * (n / 2 ^ b) + 1))). rewrite <- (V_succ f hs Hhs).
    rewrite <- EK. 
    destruct (row_set b s2 Hn Hb B60 F I2) as (s3 & G3 & I3 & H3 & M3).
    { apply H2, H1. now apply HP. }
    replace (b =? 0) with false in G3 by lia. rewrite G3. cbn [bind].
    destruct (IH (b + 4) s3) as (s' & A1 & A2 & A3 & A4); auto; try lia.
    { intros b' X1 X2 X3. apply H3, H2, H1. now apply HP. }
    { intros j Tj. apply H3, H2, H1. now apply HC. }
    exists s'. split; [exact A1|]. split; [exact A2|]. split.
    { intro id. now rewrite A3, H3, H2, H1. }
    intro id. rewrite A4, M3, M2, M1. cbn [In]. split.
    + intros [[E0|I0]|(b' & Ib & Eb)]; [right; exists b; auto|now left|right; exists b'; auto].
    + intros [I0|(b' & [<-|Ib] & Eb)]; [auto|auto|right; exists b'; auto].
Qed.

(** Everything after the path is written is at size [n + 1]. *)
Lemma getAll_spec t zs : n + 1 <= lenN L \/ (t = 0 /\ n <= lenN L) -> lenN L <= two63 -> forall s, setInv t s ->
  Forall (fun z => has s (nid (bot (fst z) + 3) (pos (fst z) (snd z))) /\ fullN (sizeAt t (bot (fst z))) (fst z) (snd z) = true) zs ->
  exists s', getAll (full f) s (map nidp zs) = Ok (map (fun z => V (fst z) (snd z)) zs, s').
Proof.
  intros Hn HL63. induction zs as [|[k q] zs IH]; intros s I F; cbn [map getAll]; [eauto|].
  inversion F as [|z zz [F1 F2] F3]; subst. cbn [fst snd] in *.
  destruct (setGet_spec t s k q Hn HL63 I F1 F2) as (s1 & G1 & I1 & H1 & _). unfold nidp at 1. cbn [fst snd]. rewrite G1. cbn [bind snd].
  destruct (IH s1 I1) as (s' & G).
  { eapply Forall_impl; [|exact F3]. intros z [X Y]. split; [now apply H1|exact Y]. }
  rewrite G. cbn [bind]. eauto.
Qed.

(** ** The database *)
Definition storeOk (m : N) (st : logStore) : Prop :=
  forall b p, b mod 4 = 0 -> b <= 60 -> fullN m b (8 * p) = true -> mget st (nid (b + 3) p) = Some (chunkData f L m b p).

Definition chunkId (id : N) (m : N) : Prop := exists b p, id = nid (b + 3) p /\ b mod 4 = 0 /\ b <= 60 /\ fullN m b (8 * p) = true.

Lemma newChunkSet_spec m data : m <= lenN L ->
  Forall (fun d => exists b p, fst d = nid (b + 3) p /\ b mod 4 = 0 /\ b <= 60 /\ snd d = chunkData f L m b p) data -> forall cs0,
  (forall id c, mget cs0 id = Some c -> exists b p, id = nid (b + 3) p /\ b mod 4 = 0 /\ b <= 60 /\ chunkOk m b p c) ->
  exists cs, foldM (fun cs p => let* c := newChunk hs (fst p) (snd p) in Ok (mput cs (fst p) c)) data cs0 = Ok cs /\
    (forall id c, mget cs id = Some c -> exists b p, id = nid (b + 3) p /\ b mod 4 = 0 /\ b <= 60 /\ chunkOk m b p c) /\
    (forall id, mhas cs id = true <-> mhas cs0 id = true \/ In id (map fst data)).
Proof.
  intro Hm. induction 1 as [|[id d] data (b & p & E1 & H1 & H2 & E2) F IH]; intros cs0 I0; cbn [foldM map In].
  - exists cs0. split; [reflexivity|]. split; [exact I0|]. tauto.
  - cbn [fst snd] in *. subst id d. destruct (newChunk_spec f hs Hf Hhs L HL m b p Hm H2) as (c & E3 & C). rewrite E3. cbn [bind].
    destruct (IH (mput cs0 (nid (b + 3) p) c)) as (cs & E4 & I4 & H4).
    { intros id c' G. destruct (N.eq_dec (nid (b + 3) p) id) as [<-|Hne].
      - rewrite mget_mput_eq in G. injection G as <-. exists b, p. auto.
      - rewrite mget_mput_neq in G by auto. now apply I0. }
    exists cs. split; [exact E4|]. split; [exact I4|]. intro id. rewrite H4. unfold mhas at 1.
    destruct (N.eq_dec (nid (b + 3) p) id) as [<-|Hne]; [rewrite mget_mput_eq; tauto|]. rewrite mget_mput_neq by auto. fold (mhas cs0 id). tauto.
Qed.

Lemma treeFetch_spec m st zs : m <= lenN L -> storeOk m st ->
  Forall (fun z => fst z <= 63 /\ nidp z < two64 - 1 /\ fullN m (bot (fst z)) (8 * pos (fst z) (snd z)) = true) zs ->
  exists s, treeFetch hs st (map nidp zs) = Ok s /\ cs_modified s = [] /\
    (forall id c, mget (cs_chunks s) id = Some c -> exists b p, id = nid (b + 3) p /\ b mod 4 = 0 /\ b <= 60 /\ chunkOk m b p c) /\
    (forall id, has s id <-> exists z, In z zs /\ id = nid (bot (fst z) + 3) (pos (fst z) (snd z))).
Proof.
  intros Hm St F. unfold treeFetch.
  assert (M : mapM chunk (map nidp zs) = Ok (map (fun z => nid (bot (fst z) + 3) (pos (fst z) (snd z))) zs)).
  { clear St. induction F as [|[k q] zs (F1 & F2 & _) F IH]; [reflexivity|]. cbn [map mapM]. unfold nidp in *. cbn [fst snd] in *.
    rewrite chunk_nid by auto. cbn [bind]. rewrite IH. reflexivity. }
  rewrite M. cbn [bind]. set (ids := nodup N.eq_dec _).
  assert (Ids : forall id, In id ids <-> exists z, In z zs /\ id = nid (bot (fst z) + 3) (pos (fst z) (snd z))).
  { intro id. unfold ids. rewrite nodup_In, in_map_iff. split; intros (z & A & B); exists z; auto. }
  clearbody ids.
  assert (D : exists data, mapM (fun id => match mget st id with None => Fail "not all expected data was found in the database" | Some raw => Ok (id, raw) end) ids = Ok data /\
      map fst data = ids /\ Forall (fun d => exists b p, fst d = nid (b + 3) p /\ b mod 4 = 0 /\ b <= 60 /\ snd d = chunkData f L m b p) data).
  { assert (Ids' : forall id, In id ids -> exists z, In z zs /\ id = nid (bot (fst z) + 3) (pos (fst z) (snd z))) by (intros; now apply Ids).
    clear Ids M. induction ids as [|id ids IH]; [exists []; split; [reflexivity|split; [reflexivity|constructor]]|].
    destruct IH as (data & E1 & E2 & F1); [intros; apply Ids'; now right|].
    destruct (Ids' id) as (z & Iz & Ez); [now left|]. rewrite Forall_forall in F. destruct (F z Iz) as (Z1 & Z2 & Z3).
    destruct (bot_props (fst z)) as [P1 P2]. pose proof (bot_le60 _ Z1) as P3.
    cbn [mapM]. rewrite Ez. rewrite (St _ _ P1 P3 Z3). cbn [bind]. rewrite E1. cbn [bind].
    eexists. split; [reflexivity|]. cbn [map fst]. split; [now rewrite E2|]. constructor; [|exact F1].
    cbn [fst snd]. do 2 eexists. eauto. }
  destruct D as (data & E1 & E2 & F1). rewrite E1. cbn [bind]. unfold newChunkSet.
  destruct (newChunkSet_spec m data Hm F1 []) as (cs & E3 & I3 & H3); [intros id c G; discriminate|].
  rewrite E3. cbn [bind]. eexists. split; [reflexivity|]. split; [reflexivity|]. split; [exact I3|].
  intro id. unfold has. cbn [cs_chunks]. rewrite H3, E2, Ids. unfold mhas. cbn [mget]. split; [intros [X|X]; [discriminate|exact X]|auto].
Qed.

(** New chunks. *)
Lemma chunkData_empty m b p : fullN m b (8 * p) = false -> chunkData f L m b p = [].
Proof.
  intro F. unfold chunkData. rewrite (filter_ext_in _ (fun _ => false)); [cbn; reflexivity|].
  intros o _. destruct (fullN m b (8 * p + o)) eqn:E0; [|reflexivity]. rewrite full_iff in E0.
  assert (fullN m b (8 * p) = true); [rewrite full_iff; pose proof (pow2_pos b); nia|congruence].
Qed.

Lemma setAdd_spec ids : n <= lenN L -> NoDup ids -> Forall (fun id => exists b p, id = nid (b + 3) p /\ b mod 4 = 0 /\ b <= 60 /\ nid (b + 3) p < two64 - 1 /\ fullN n b (8 * p) = false) ids ->
  forall s, setInv 0 s -> (forall id, In id ids -> ~ has s id) ->
  exists s', foldM (setAdd hs) ids s = Ok s' /\ setInv 0 s' /\ (forall id, has s' id <-> has s id \/ In id ids) /\ cs_modified s' = cs_modified s.
Proof.
  intro Hn. induction ids as [|id ids IH]; intros ND F s I Hno; cbn [foldM].
  - exists s. split; [reflexivity|]. split; [exact I|]. split; [cbn; tauto|reflexivity].
  - inversion ND as [|x l N1 N2]; subst. inversion F as [|x l (b & p & E0 & H1 & H2 & H3 & H4) F2]; subst.
    unfold setAdd at 1. rewrite chunk_nid by (auto; lia). destruct (bot_add b 3 H1) as [B1 B2]; [lia|]. unfold pos. rewrite B1, B2.
    change (2 ^ (3 - 3)) with 1. rewrite N.div_1_r. cbn [bind].
    destruct (mhas (cs_chunks s) (nid (b + 3) p)) eqn:Hm; [exfalso; apply (Hno (nid (b + 3) p)); [now left|exact Hm]|].
    destruct (newChunk_spec f hs Hf Hhs L HL n b p Hn H2) as (c & E1 & C). rewrite chunkData_empty in E1 by exact H4. rewrite E1. cbn [bind].
    set (s1 := {| cs_chunks := mput (cs_chunks s) (nid (b + 3) p) c; cs_modified := cs_modified s |}).
    assert (Hs1 : forall id, has s1 id <-> has s id \/ id = nid (b + 3) p).
    { intro id. unfold has, s1, mhas. cbn [cs_chunks]. destruct (N.eq_dec (nid (b + 3) p) id) as [<-|Hne].
      - rewrite mget_mput_eq. tauto.
      - rewrite mget_mput_neq by auto. split; [auto|]. intros [X|X]; [exact X|congruence]. }
    destruct (IH N2 F2 s1) as (s' & G1 & G2 & G3 & G4).
    { unfold s1. eapply setInv_put; eauto. unfold sizeAt. replace (b <? 0) with false by lia. exact C. }
    { intros id' I' X. apply Hs1 in X as [X|X]; [apply (Hno id'); [now right|exact X]|subst id'; contradiction]. }
    exists s'. split; [exact G1|]. split; [exact G2|]. split; [|exact G4].
    intro id. rewrite G3, Hs1. cbn [In]. split; [intros [[X|X]|X]; auto|intros [X|[X|X]]; auto].
Qed.

End Hash.
