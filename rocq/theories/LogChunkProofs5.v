(** Appending to the stored log, and reading proofs from it. *)
From Verif Require Import Base BaseProofs LogMathModel LogMathSpec LogTreeModel LogTreeSpec NodeMathProofs LogMathProofs LogMathProofs2 LogTreeProofs LogAppendProofs LogVerifyProofs LogVerifyProofs2 LogChunkModel LogChunkSpec LogChunkProofs LogChunkProofs2 LogChunkProofs3 LogChunkProofs4.

Lemma nid_lt K p : K <= 63 -> p * 2 ^ K < two63 -> nid K p < two64 - 1.
Proof.
  intros HK Hp. rewrite nid_form, pow2_S. pose proof (pow2_pos K) as P.
  assert (E63 : two63 = 2 ^ (63 - K) * 2 ^ K) by (rewrite <- N.pow_add_r; replace (63 - K + K) with 63 by lia; reflexivity).
  replace two64 with (2 * two63) by reflexivity. rewrite E63 in *.
  apply N.mul_lt_mono_pos_r in Hp; [|lia]. set (Q := 2 ^ (63 - K)) in *. set (P0 := 2 ^ K) in *. clearbody Q P0.
  assert ((p + 1) * P0 <= Q * P0) by (apply N.mul_le_mono_r; lia). nia.
Qed.

Lemma pos_le k q : pos k q * 2 ^ (bot k + 3) <= q * 2 ^ k.
Proof.
  destruct (bot_props k) as [B1 B2]. set (b := bot k) in *. assert (Hd : k - b < 4) by lia.
  remember (k - b) as d eqn:Ed. assert (Ek : k = b + d) by lia. rewrite Ek. unfold pos. destruct (bot_add b d B1 Hd) as [_ ->].
  pose proof (pow2_pos (3 - d)). pose proof (N.mul_div_le q (2 ^ (3 - d)) ltac:(lia)) as M.
  replace (b + 3) with (b + d + (3 - d)) by lia. rewrite (N.pow_add_r 2 (b + d)).
  generalize dependent (q / 2 ^ (3 - d)). intros p M. generalize (2 ^ (b + d)). intro X. generalize dependent (2 ^ (3 - d)). intros Y _ M. nia.
Qed.

Lemma chunk_lt n k q : n <= two63 -> fullN n k q = true -> nid (bot k + 3) (pos k q) < two64 - 1.
Proof.
  intros Hn F. destruct (nid_full_lt n k q Hn F) as [_ Hk]. apply nid_lt.
  - pose proof (bot_le60 k Hk). lia.
  - pose proof (pos_le k q). rewrite full_iff in F. pose proof (pow2_pos k). nia.
Qed.

Lemma chunk_self b p : b mod 4 = 0 -> bot (b + 3) = b /\ pos (b + 3) p = p.
Proof.
  intro Hb. destruct (bot_add b 3 Hb) as [B1 B2]; [lia|]. split; [exact B1|]. unfold pos. rewrite B2. change (2 ^ (3 - 3)) with 1. apply N.div_1_r.
Qed.

Lemma Forall_ex_map {A B} (g : A -> B) (P : A -> Prop) l : Forall (fun y => exists x, y = g x /\ P x) l -> exists xs, l = map g xs /\ Forall P xs.
Proof.
  induction 1 as [|y l (x & E0 & Px) F IH]; [exists []; auto|]. destruct IH as (xs & E1 & F1). exists (x :: xs). cbn. split; [now f_equal|auto].
Qed.

Lemma nodeId_nid k q : nodeId (q * 2 ^ k) (2 ^ k) = nid k q.
Proof.
  unfold nodeId. destruct (N.eq_dec k 0) as [->|Hk].
  - rewrite N.pow_0_r, N.eqb_refl, nid_0. lia.
  - remember (k - 1) as j eqn:Ej. assert (k = j + 1) by lia. subst k. clear Ej Hk. rewrite (split_pow2 1 eq_refl). pose proof (pow2_pos j) as P.
    rewrite nid_form. rewrite !pow2_S. destruct (N.eqb_spec (2 * 2 ^ j) 1); nia.
Qed.

(** ** The copath of the newest entry and the chunks on its path *)
Section Edge.
Variable n : N.
Hypothesis Hn : n < two63.

Lemma copath_full j : N.testbit n j = true -> fullN n j (n / 2 ^ j - 1) = true.
Proof.
  intro T. rewrite full_iff. pose proof (pow2_pos j). pose proof (N.mul_div_le n (2 ^ j) ltac:(lia)) as M.
  assert (n / 2 ^ j <> 0). { intro E0. rewrite testbit_div, E0 in T. discriminate. }
  generalize dependent (n / 2 ^ j). intros q M Hq. replace (q - 1 + 1) with q by lia. lia.
Qed.

(** If the chunk of the edge in row [b] has anything in it, it is the chunk of a copath node. *)
Lemma path_in_copath b : b mod 4 = 0 -> fullN n b (8 * (n / 2 ^ (b + 3))) = true ->
  exists j, N.testbit n j = true /\ bot j = b /\ pos j (n / 2 ^ j - 1) = n / 2 ^ (b + 3).
Proof.
  intros Hb F. rewrite full_iff in F.
  assert (D : forall d, d < 3 -> N.testbit n (b + d) = true -> exists j, N.testbit n j = true /\ bot j = b /\ pos j (n / 2 ^ j - 1) = n / 2 ^ (b + 3)).
  { intros d Hd T. exists (b + d). split; [exact T|]. destruct (bot_add b d Hb) as [B1 B2]; [lia|]. split; [exact B1|].
    unfold pos. rewrite B2. rewrite testbit_div in T. apply N.eqb_eq in T.
    replace (n / 2 ^ (b + 3)) with (n / 2 ^ (b + d) / 2 ^ (3 - d)).
    2:{ rewrite N.div_div by (pose proof (pow2_pos (b + d)); pose proof (pow2_pos (3 - d)); lia). f_equal. rewrite <- N.pow_add_r. f_equal. lia. }
    generalize dependent (n / 2 ^ (b + d)). intros q T.
    assert (EP : 2 ^ (3 - d) = 2 * 2 ^ (2 - d)) by (rewrite <- pow2_S; f_equal; lia).
    pose proof (pow2_pos (2 - d)) as P. rewrite EP. generalize dependent (2 ^ (2 - d)). intros Q _ P.
    rewrite <- !N.div_div by lia. f_equal.
    pose proof (N.div_mod q 2 ltac:(lia)) as D. rewrite T in D. symmetry. apply (N.div_unique _ 2 (q / 2) 0); lia. }
  destruct (N.testbit n b) eqn:T0; [apply (D 0); [lia|now rewrite N.add_0_r]|].
  destruct (N.testbit n (b + 1)) eqn:T1; [apply (D 1); [lia|exact T1]|].
  destruct (N.testbit n (b + 2)) eqn:T2; [apply (D 2); [lia|exact T2]|].
  exfalso. rewrite testbit_div in *. apply N.eqb_neq in T0, T1, T2.
  replace (b + 2) with (b + 1 + 1) in T2 by lia. replace (b + 3) with (b + 1 + 1 + 1) in F by lia.
  rewrite !div_S in * by exact Hn.
  pose proof (pow2_pos b) as P. pose proof (N.div_mod n (2 ^ b) ltac:(lia)) as D0. pose proof (N.mod_lt n (2 ^ b) ltac:(lia)) as M0.
  set (q := n / 2 ^ b) in *.
  pose proof (N.div_mod q 2 ltac:(lia)) as D1. pose proof (N.mod_lt q 2 ltac:(lia)).
  pose proof (N.div_mod (q / 2) 2 ltac:(lia)) as D2. pose proof (N.mod_lt (q / 2) 2 ltac:(lia)).
  pose proof (N.div_mod (q / 2 / 2) 2 ltac:(lia)) as D3. pose proof (N.mod_lt (q / 2 / 2) 2 ltac:(lia)).
  assert (Eq : q = 8 * (q / 2 / 2 / 2)) by lia. rewrite <- Eq in F. clear -F D0 M0 P. clearbody q. nia.
Qed.

Lemma rows_In b m : In b (rowsF 4 m) -> b mod 4 = 0 /\ 4 <= b <= 4 * N.of_nat m.
Proof.
  assert (G : forall m b0, b0 mod 4 = 0 -> In b (rowsF b0 m) -> b mod 4 = 0 /\ b0 <= b < b0 + 4 * N.of_nat m).
  { clear m. induction m as [|m IH]; intros b0 H0 I; [destruct I|]. destruct I as [<-|I]; [split; [exact H0|lia]|].
    apply IH in I; [split; [apply I|lia]|]. pose proof (N.div_mod b0 4 ltac:(lia)). symmetry. apply (N.mod_unique _ 4 (b0 / 4 + 1)); lia. }
  intro I. apply G in I; [|reflexivity]. destruct I as [I1 I2]. split; [exact I1|].
  pose proof (N.div_mod b 4 ltac:(lia)). lia.
Qed.

Lemma rows_all b : b mod 4 = 0 -> 4 <= b <= 60 -> In b (rowsF 4 15).
Proof.
  intros H0 Hb. pose proof (N.div_mod b 4 ltac:(lia)) as D. rewrite H0 in D. set (q := b / 4) in *. clearbody q. subst b.
  assert (Hq : q = 1 \/ q = 2 \/ q = 3 \/ q = 4 \/ q = 5 \/ q = 6 \/ q = 7 \/ q = 8 \/ q = 9 \/ q = 10 \/ q = 11 \/ q = 12 \/ q = 13 \/ q = 14 \/ q = 15) by lia.
  repeat (destruct Hq as [->|Hq]; [cbn; tauto|]). subst q. cbn. tauto.
Qed.

Definition pathRows : list N := 0 :: filter (fullLv n) (rowsF 4 15).
Definition pathId (b : N) : N := nid (b + 3) (n / 2 ^ (b + 3)).

Lemma fullLv_0 : fullLv n 0 = true.
Proof. unfold fullLv. rewrite N.pow_0_r, N.div_1_r. apply N.eqb_eq. lia. Qed.

Lemma pathRows_In b : In b pathRows <-> b mod 4 = 0 /\ b <= 60 /\ fullLv n b = true.
Proof.
  unfold pathRows. cbn [In]. rewrite filter_In. split.
  - intros [<-|[I F]]; [split; [reflexivity|]; split; [lia|apply fullLv_0]|]. apply rows_In in I. destruct I. split; [auto|]. split; [lia|auto].
  - intros (A & B & C). destruct (N.eq_dec b 0) as [->|Hne]; [now left|]. right. split; [|exact C]. apply rows_all; [exact A|].
    pose proof (N.div_mod b 4 ltac:(lia)). lia.
Qed.

Lemma pathId_lt b : b <= 60 -> pathId b < two64 - 1.
Proof.
  intro Hb. apply nid_lt; [lia|]. pose proof (pow2_pos (b + 3)). pose proof (N.mul_div_le n (2 ^ (b + 3)) ltac:(lia)) as M. lia.
Qed.

Lemma mapM_path : forall rows, (forall b, In b rows -> b mod 4 = 0 /\ b <= 60) -> mapM chunk (map (E n) rows) = Ok (map pathId rows).
Proof.
  induction rows as [|b rows IH]; intro R; [reflexivity|]. cbn [map mapM]. destruct (R b) as [R1 R2]; [now left|].
  unfold E at 1. pose proof (E_lt64 n Hn b ltac:(lia)). unfold E in *. rewrite chunk_nid by (auto; lia). cbn [bind].
  destruct (edge_pos n b R1) as [-> ->]. rewrite IH by (intros; apply R; now right). reflexivity.
Qed.

Lemma already : exists ae, (if 0 <? n then (let* cp := copath (2 * n) (n + 1) in mapM chunk cp) else Ok []) = Ok ae /\
  forall id, In id ae <-> exists j, N.testbit n j = true /\ id = nid (bot j + 3) (pos j (n / 2 ^ j - 1)).
Proof.
  destruct (N.ltb_spec 0 n) as [H0|H0].
  2:{ exists []. split; [reflexivity|]. intro id. split; [intros []|]. intros (j & T & _). assert (n = 0) by lia. subst n. rewrite N.bits_0 in T. discriminate. }
  rewrite copath_edge by exact Hn. cbn [bind].
  exists (map (fun x => nid (bot (x - 1) + 3) (pos (x - 1) (n / 2 ^ (x - 1) - 1))) (bitsUp n 0 64)). split.
  - assert (G : forall l, (forall x, In x l -> N.testbit n (x - 1) = true) ->
      mapM chunk (map (fun x => nid (x - 1) (n / 2 ^ (x - 1) - 1)) l) = Ok (map (fun x => nid (bot (x - 1) + 3) (pos (x - 1) (n / 2 ^ (x - 1) - 1))) l)).
    { induction l as [|x l IH]; intro Tl; [reflexivity|]. cbn [map mapM].
      destruct (nid_full_lt n (x - 1) (n / 2 ^ (x - 1) - 1)) as [A1 A2]; [lia|apply copath_full; apply Tl; now left|].
      rewrite chunk_nid by auto. cbn [bind]. rewrite IH by (intros; apply Tl; now right). reflexivity. }
    apply G. intros x I. apply (bitsUp_In n Hn) in I as (j & -> & _ & T). now replace (j + 1 - 1) with j by lia.
  - intro id. rewrite in_map_iff. split.
    + intros (x & <- & I). apply (bitsUp_In n Hn) in I as (j & -> & _ & T). exists j. replace (j + 1 - 1) with j by lia. auto.
    + intros (j & T & ->). exists (j + 1). replace (j + 1 - 1) with j by lia. split; [reflexivity|]. apply (bitsUp_In n Hn). exists j.
      split; [reflexivity|]. split; [|exact T]. split; [lia|].
      destruct (nid_full_lt n j (n / 2 ^ j - 1)) as [_ Hj]; [lia|now apply copath_full|]. cbn. lia.
Qed.

(** The maximal full subtrees of [n + 1] entries are on the path or on the copath. *)
Lemma fulls_where j : N.odd ((n + 1) / 2 ^ j) = true ->
  fullN (n + 1) j ((n + 1) / 2 ^ j - 1) = true /\
  ((exists b, In b pathRows /\ nid (bot j + 3) (pos j ((n + 1) / 2 ^ j - 1)) = pathId b) \/
   (N.testbit n j = true /\ (n + 1) / 2 ^ j - 1 = n / 2 ^ j - 1)).
Proof.
  intro O. pose proof (pow2_pos j) as P.
  assert (Hq : (n + 1) / 2 ^ j <> 0) by (intro E0; rewrite E0 in O; discriminate).
  assert (F : fullN (n + 1) j ((n + 1) / 2 ^ j - 1) = true).
  { rewrite full_iff. pose proof (N.mul_div_le (n + 1) (2 ^ j) ltac:(lia)). generalize dependent ((n + 1) / 2 ^ j). intros q O Hq M. replace (q - 1 + 1) with q by lia. lia. }
  split; [exact F|].
  pose proof (N.div_mod n (2 ^ j) ltac:(lia)) as D. pose proof (N.mod_lt n (2 ^ j) ltac:(lia)) as M.
  destruct (N.eq_dec (n mod 2 ^ j + 1) (2 ^ j)) as [E0|E0].
  - left. assert (Eq : (n + 1) / 2 ^ j = n / 2 ^ j + 1).
    { symmetry. apply (N.div_unique _ _ _ 0); lia. }
    rewrite Eq. rewrite N.add_sub.
    assert (FJ : fullLv n j = true).
    { unfold fullLv. apply N.eqb_eq. generalize dependent (n / 2 ^ j). intros; nia. }
    destruct (nid_full_lt (n + 1) _ _ ltac:(lia) F) as [_ J63].
    destruct (bot_props j) as [B1 B2]. exists (bot j). split.
    + apply pathRows_In. split; [exact B1|]. split; [now apply bot_le60|]. eapply (fullLv_down n Hn); [exact FJ|lia].
    + unfold pathId. f_equal. unfold pos. remember (j - bot j) as d eqn:Ed. assert (Hd : d < 4) by lia.
      destruct (bot_add (bot j) d B1 Hd) as [_ Bm]. replace (bot j + d) with j in Bm by lia. rewrite Bm.
      rewrite N.div_div by (pose proof (pow2_pos (3 - d)); lia). f_equal. rewrite <- N.pow_add_r. f_equal. lia.
  - right. assert (Eq : (n + 1) / 2 ^ j = n / 2 ^ j).
    { symmetry. apply (N.div_unique _ _ _ (n mod 2 ^ j + 1)); lia. }
    rewrite Eq in *. split; [|reflexivity]. rewrite testbit_div. rewrite <- N.bit0_mod, N.bit0_odd, O. reflexivity.
Qed.
End Edge.
