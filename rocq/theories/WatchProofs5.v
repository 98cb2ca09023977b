(** Updates of the view are accepted within the clock tolerance. *)
From Verif Require Import Base BaseProofs LogMathModel NodeMathProofs LogMathProofs TransMathModel TransMathSpec TransMathProofs TransMathProofs2 LaddersModel LaddersProofs CodecModel AlgModel AlgSpec AlgProofs AlgProofs2 AlgProofs3 AlgProofs4  WatchSpec WatchProofs WatchProofs2.

Lemma sub64_small a b : a < 18446744073709551616 -> b <= a -> sub64 a b = a - b.
Proof.
  intros A B. unfold sub64, two64. replace (a + 18446744073709551616 - b) with (a - b + 1 * 18446744073709551616) by lia. rewrite N.mod_add by lia. apply N.mod_small. lia.
Qed.

Lemma view_front a len l : 1 <= len -> SFront a len l -> Forall (fun x => x < a + len) l.
Proof.
  intros Hl F. revert Hl. induction F as [a len E|a len rest Hr F IH]; intro Hl.
  - constructor; [|constructor]. unfold sroot. lia.
  - assert (Ll : lsize len < len) by (apply lsize_lt; lia). constructor; [unfold sroot; lia|]. eapply Forall_impl; [|apply IH; lia]. cbn. unfold sroot. lia.
Qed.

Lemma view_getTs L {A} x (k : N -> prog A) s : x < h_n L ->
  run (honest L) (pbind (getTs x) k) s = addEv (EvTs x (Ok (h_ts L x))) (run (honest L) (k (h_ts L x)) s).
Proof. intro Hx. cbn [getTs pbind run honest pTs]. rewrite (proj2 (N.ltb_lt _ _) Hx). reflexivity. Qed.

Lemma view_all L xs s : Forall (fun x => x < h_n L) xs -> run (honest L) (getAllTs xs) s = (Ok tt, s, map (fun x => EvTs x (Ok (h_ts L x))) xs).
Proof. induction 1 as [|x t Hx F IH]; [reflexivity|]. cbn [getAllTs]. rewrite view_getTs by auto. rewrite IH. reflexivity. Qed.

Lemma view_iff c L now m s : okLog L -> now < two64 -> (forall k, m = Some k -> 1 <= k <= h_n L) ->
  (result (run (honest L) (updateView c now (h_n L) m) s) = Ok tt <->
   h_ts L (h_n L - 1) <= now + pc_maxAhead c /\ now <= h_ts L (h_n L - 1) + pc_maxBehind c).
Proof.
  intros HL Hnow Hm. pose proof (w_n L (okLog_times L HL)) as Hn. pose proof (w_64 L (okLog_times L HL) (h_n L - 1) ltac:(lia)) as C1.
  destruct (c10_frontier (h_n L) Hn) as (fr & EF & SF).
  assert (FL : Forall (fun y => y < h_n L) fr) by (apply (view_front 0 (h_n L) fr ltac:(lia) SF)).
  assert (exists xs, updateViewPath (h_n L) m = Ok xs /\ Forall (fun x => x < h_n L) xs) as (xs & Ex & Fx).
  { destruct m as [k|]; [|exists fr; auto]. destruct (c10_partial (h_n L) k (Hm k eq_refl) ltac:(lia)) as (old & new & xs & E1 & E2 & E3 & F & _).
    exists xs. split; [exact E3|]. eapply Forall_impl; [|exact F]. cbn. lia. }
  unfold updateView. replace (match m with Some m0 => h_n L <? m0 | None => false end) with false
    by (destruct m as [k|]; auto; symmetry; apply N.ltb_ge; specialize (Hm k eq_refl); lia).
  destruct (N.eqb_spec (h_n L) 0) as [|_]; [lia|]. rewrite Ex. cbn [lift pbind]. rewrite run_bind, (view_all L xs s Fx). cbn [andThen].
  rewrite sub1_64 by exact Hn. rewrite (view_getTs L) by lia. set (t := h_ts L (h_n L - 1)) in *. unfold two64 in *.
  destruct (N.ltb_spec now t) as [A|A]; cbn [andb].
  - rewrite sub64_small by lia. destruct (N.ltb_spec (pc_maxAhead c) (t - now)).
    + cbn. split; [discriminate|lia].
    + destruct (N.ltb_spec t now); [lia|]. cbn. split; [intros _; lia|reflexivity].
  - destruct (N.ltb_spec t now); cbn [andb]; [|cbn; split; [intros _; lia|reflexivity]].
    rewrite sub64_small by lia. destruct (N.ltb_spec (pc_maxBehind c) (now - t)); cbn; [split; [discriminate|lia]|split; [intros _; lia|reflexivity]].
Qed.

