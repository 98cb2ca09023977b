(** A search from the server's database to the client's verdict. *)
From Coq Require Import Sorted Permutation.
From Verif Require Import Base BaseProofs LogMathSpec LogTreeModel LogTreeSpec LogChunkModel PrefixModel PrefixSpec TransMathModel TransMathProofs2 LaddersModel LaddersProofs
  CodecModel CodecSpec CodecProofs CodecProofs2 AlgModel AlgSpec AlgProofs AlgProofs4 AlgProofs6 HandleModel HandleSpec HandleProofs HandleProofs2 HandleProofs3 HandleProofs4
  HandleProofs5 HandleProofs6 HandleProofs7 HandleProofs8
  StoreModel CommitModel MutateModel MutateSpec ServerModel ClientModel ClientSpec ClientProofs2 MutateProofs2.
Open Scope N_scope.
Local Open Scope list_scope.

Lemma Forall2_cons_iff {A B} (R : A -> B -> Prop) a b l l' : Forall2 R (a :: l) (b :: l') -> R a b /\ Forall2 R l l'.
Proof. intro F. inversion F; auto. Qed.

(** ** The ladder *)

Lemma whole_ladder t base : searchLadder_loop t t [] [] base = base.
Proof.
  induction base as [|v base IH]; [reflexivity|]. cbn [searchLadder_loop mem32 existsb orb].
  replace ((v <=? t) && (t <? v) || (t <? v) && (v <=? t)) with false; [now rewrite IH|].
  destruct (N.leb_spec v t), (N.ltb_spec t v); cbn; try reflexivity; lia.
Qed.

Lemma search_ladder_base v base : baseBinaryLadder v = Ok base -> searchBinaryLadder v v [] [] = Ok base.
Proof. intro E. unfold searchBinaryLadder. rewrite E. cbn [bind]. now rewrite whole_ladder. Qed.

Lemma vrfInput_short l v : lenN l <= 255 -> exists input, vrfInput l v = Ok input.
Proof.
  intro Hl. unfold vrfInput, writeBytes. replace (maxS 1 <? lenN l) with false; [cbn; unfold ret; eauto|]. symmetry. apply N.ltb_ge. exact Hl.
Qed.

Section Ladder.
Variable hs : N.
Variable vrf : bytes -> bytes * bytes.
Variable vrfVerify : bytes -> bytes -> option bytes.
Variable l : bytes.
Hypothesis Hl : lenN l <= 255.
Hypothesis Hvrf : forall i, vrfVerify i (snd (vrf i)) = Some (fst (vrf i)).

Definition stepFor (v : N) (proof : bytes) : Prop := exists input, vrfInput l v = Ok input /\ proof = snd (vrf input) /\ keyOf vrf l v = fst (vrf input).

Lemma server_ladder : forall ladder q, NoDup ladder -> (forall v, In v ladder -> lenN (keyOf vrf l v) = hs /\ mget (q_versions q) v = None) ->
  exists vm proofs, addLadderVersions hs vrf l q ladder =
      Ok ({| q_index := q_index q; q_versions := vm; q_tracker := q_tracker q; q_ts := q_ts q; q_proofs := q_proofs q; q_roots := q_roots q |}, proofs) /\
    Forall2 stepFor ladder proofs /\
    (forall v, In v ladder -> mget vm v = Some (keyOf vrf l v, None)) /\ (forall v, ~ In v ladder -> mget vm v = mget (q_versions q) v).
Proof.
  induction ladder as [|v t IH]; intros q ND Hk.
  - exists (q_versions q), []. cbn. split; [now destruct q|]. split; [constructor|]. split; [intros ? []|auto].
  - inversion_clear ND as [|? ? NI ND']. cbn [addLadderVersions]. unfold computeVrfOutput. destruct (vrfInput_short l v Hl) as [input Ei]. rewrite Ei. cbn [bind].
    destruct (vrf input) as [out proof] eqn:Ev. assert (Ek : keyOf vrf l v = out) by (unfold keyOf; rewrite Ei, Ev; reflexivity).
    destruct (Hk v (or_introl eq_refl)) as [Kl Km]. rewrite Ek in Kl. unfold qAddVersion at 1, addVersion. rewrite Kl, N.eqb_refl. cbn [negb]. unfold mhas. rewrite Km. cbn [bind].
    match goal with |- context [addLadderVersions _ _ _ ?x t] => set (q1 := x) end.
    destruct (IH q1 ND') as (vm & proofs & E & F & A & B).
    + intros u I. split; [apply Hk; now right|]. cbn [q1 q_versions]. rewrite mget_mput. destruct (N.eqb_spec u v) as [->|]; [contradiction|]. apply Hk. now right.
    + rewrite E. cbn [bind]. exists vm, (proof :: proofs). split; [reflexivity|]. split; [constructor; [exists input; rewrite Ev; auto|exact F]|]. split.
      * intros u [<-|I]; auto. rewrite B by auto. cbn [q1 q_versions]. rewrite mget_mput, N.eqb_refl. now rewrite Ek.
      * intros u N'. rewrite B by (intro; apply N'; now right). cbn [q1 q_versions]. rewrite mget_mput. destruct (N.eqb_spec u v) as [->|]; [exfalso; apply N'; now left|reflexivity].
Qed.

Definition withVersions (v : cverifier) (vm : verMap) : cverifier :=
  let r := d_handle (v_d v) in
  setProvider v (withHandle (v_d v) {| r_ts := r_ts r; r_proofs := r_proofs r; r_roots := r_roots r; r_incl := r_incl r; r_versions := vm; r_tracker := r_tracker r |}).

Lemma withVersions_same v : withVersions v (vVersions v) = v.
Proof. destruct v as [s f [r sub ret M R] n nP m]. destruct r. reflexivity. Qed.

Lemma vVersions_with v vm : vVersions (withVersions v vm) = vm.
Proof. reflexivity. Qed.

Lemma client_ladder manual (com : N -> option bytes) : forall vers steps v, NoDup vers -> (forall ver, In ver vers -> mget (vVersions v) ver = None) ->
  Forall2 (fun ver st => stepFor ver (ls_proof st) /\ lenN (keyOf vrf l ver) = hs /\ match com ver with Some cm => lenN cm = hs | None => True end /\
    match mget manual ver with Some cm => ls_commitment st = None /\ com ver = Some cm | None => ls_commitment st = com ver end) vers steps ->
  exists vm, ladderSteps hs vrfVerify l v vers steps manual = Ok (withVersions v vm) /\
    (forall ver, In ver vers -> mget vm ver = Some (keyOf vrf l ver, com ver)) /\ (forall ver, ~ In ver vers -> mget vm ver = mget (vVersions v) ver).
Proof.
  induction vers as [|ver vers IH]; intros steps v ND Fr F.
  - inversion F; subst. exists (vVersions v). cbn [ladderSteps]. rewrite withVersions_same. split; [reflexivity|]. split; [intros ? []|auto].
  - inversion_clear ND as [|? ? NI ND']. destruct steps as [|st steps']; [inversion F|]. apply Forall2_cons_iff in F. destruct F as [(S1 & K1 & C1 & M1) F']. cbn [ladderSteps].
    destruct S1 as (input & Ei & Ep & Ek). rewrite Ei. cbn [bind]. rewrite Ep, Hvrf, <- Ek.
    assert (EV : vAddVersion hs v ver (keyOf vrf l ver) (com ver) = Ok (withVersions v (mput (vVersions v) ver (keyOf vrf l ver, com ver)))).
    { unfold vAddVersion, addVersion. rewrite K1, N.eqb_refl. cbn [negb]. assert (EC : match com ver with Some cm => negb (lenN cm =? hs) | None => false end = false).
      { destruct (com ver); [|reflexivity]. rewrite C1, N.eqb_refl. reflexivity. }
      rewrite EC. assert (Em : mhas (r_versions (d_handle (v_d v))) ver = false) by (unfold mhas; change (r_versions (d_handle (v_d v))) with (vVersions v); rewrite Fr by (now left); reflexivity).
      rewrite Em. reflexivity. }
    destruct (IH steps' (withVersions v (mput (vVersions v) ver (keyOf vrf l ver, com ver))) ND') as (vm & E & A & B).
    + intros u I. rewrite vVersions_with, mget_mput. destruct (N.eqb_spec u ver) as [->|]; [contradiction|]. apply Fr. now right.
    + exact F'.
    + exists vm. split; [|split].
      * destruct (mget manual ver) as [cm|].
        -- destruct M1 as [-> M2]. rewrite <- M2, EV. cbn [bind]. exact E.
        -- rewrite M1. destruct (com ver); rewrite EV; cbn [bind]; exact E.
      * intros u [<-|I]; auto. rewrite B by auto. now rewrite vVersions_with, mget_mput, N.eqb_refl.
      * intros u N'. rewrite B by (intro; apply N'; now right). rewrite vVersions_with, mget_mput.
        destruct (N.eqb_spec u ver) as [->|]; [exfalso; apply N'; now left|reflexivity].
Qed.
End Ladder.

(** ** The honest run *)

Section Honest.
Variable f : bytes -> bytes.
Variable hs : N.
Variable W : world.
Hypothesis HF : faithful f hs W.
Hypothesis Hsmall : (N.to_nat hs <= 32)%nat.
Hypothesis Hpos : 0 < hs.
Variable c : pubConfig.
Variable now : N.
Local Notation L := (observed W).
Local Notation n := (lenN (w_entries W)).

Lemma Hn1 : 1 <= n < 2 ^ 64.
Proof. destruct HF as ((H & _) & _). exact H. Qed.

Lemma sub64_exact a b : a < 2 ^ 64 -> b <= a -> sub64 a b = a - b.
Proof.
  intros A B. unfold sub64, two64 in *. change (2 ^ 64) with 18446744073709551616 in *.
  replace (a + 18446744073709551616 - b) with (a - b + 1 * 18446744073709551616) by lia. rewrite N.mod_add by lia. apply N.mod_small. lia.
Qed.

Lemma view_result m s : match m with Some k => 1 <= k <= n | None => True end -> h_ts L (n - 1) < 2 ^ 64 -> clockFine c now (h_ts L (n - 1)) ->
  exists evs, run (honest L) (updateView c now n m) s = (Ok tt, s, evs).
Proof.
  intros Hm C1 (C2 & C3 & C4). pose proof Hn1 as Hn. destruct (c10_frontier n Hn) as (fr & EF & SF).
  assert (FL : Forall (fun y => y < n) fr) by (apply (SFront_lt L Hn 0 n fr SF)).
  assert (exists xs, updateViewPath n m = Ok xs /\ Forall (fun x => x < n) xs) as (xs & Ex & Fx).
  { destruct m as [k|]; [|exists fr; auto]. destruct (c10_partial n k Hm ltac:(lia)) as (old & new & xs & E1 & E2 & E3 & F & _).
    exists xs. split; [exact E3|]. eapply Forall_impl; [|exact F]. cbn. lia. }
  unfold updateView. replace (match m with Some m0 => n <? m0 | None => false end) with false by (destruct m; auto; symmetry; apply N.ltb_ge; lia).
  destruct (N.eqb_spec n 0) as [|_]; [lia|]. rewrite Ex. cbn [lift pbind]. rewrite run_bind, (run_all L xs s Fx). cbn [andThen].
  rewrite sub1_64 by exact Hn. rewrite (run_getTs L) by (change (h_n L) with (lenN (w_entries W)); lia).
  set (t := h_ts L (n - 1)) in *.
  assert (B1 : (now <? t) && (pc_maxAhead c <? sub64 t now) = false).
  { destruct (N.ltb_spec now t); [|reflexivity]. rewrite sub64_exact by lia. cbn [andb]. apply N.ltb_ge. lia. }
  assert (B2 : (t <? now) && (pc_maxBehind c <? sub64 now t) = false).
  { destruct (N.ltb_spec t now); [|reflexivity]. rewrite sub64_exact by lia. cbn [andb]. apply N.ltb_ge. lia. }
  rewrite B1, B2. cbn. eauto.
Qed.

Lemma honest_answer {A} (p : prog A) m a : match m with Some k => 1 <= k <= n | None => True end -> h_ts L (n - 1) < 2 ^ 64 -> clockFine c now (h_ts L (n - 1)) ->
  result (run (honest L) p 0) = Ok a -> honestAnswer W (pbind (updateView c now n m) (fun _ => p)) = Ok a.
Proof.
  intros Hm C1 HC Hr. unfold honestAnswer. rewrite run_bind. destruct (view_result m 0 Hm C1 HC) as (evs & ->). cbn [andThen].
  destruct (run (honest L) p 0) as [[r s'] l]. cbn in *. exact Hr.
Qed.

Lemma pursue {A} (p : prog A) ret m a :
  (forall s r s' evs, run (honest L) p s = (r, s', evs) -> smooth L tracker0 evs) ->
  keeps W m ret -> match m with Some k => 1 <= k <= n | None => True end ->
  (advances n m \/ forall fr s a s' evs, frontier n = Ok fr -> run (honest L) p s = (Ok a, s', evs) -> forall x, In x fr -> touched evs x) ->
  let q := pbind (updateView c now n m) (fun _ => p) in
  honestAnswer W q = Ok a ->
  exists s' evs fr, run (honest L) q 0 = (Ok a, s', evs) /\ smooth L tracker0 evs /\ frontier n = Ok fr /\
    forall x, In x fr -> In x (map fst ret) \/ touched evs x.
Proof.
  intros SM KP Hm CV q HA. pose proof Hn1 as Hn. destruct (c10_frontier n Hn) as (fr & EF & _).
  destruct (run_fst W q) as (s' & evs & ER). exists s', evs, fr. rewrite HA in ER. split; [exact ER|]. split; [|split; [exact EF|]].
  - unfold q in ER. rewrite run_bind in ER.
    destruct (pre_run L (updateView c now n m) tracker0 _ 0 (pre_updateView L c Hn now m tracker0)) as (r1 & s1 & e1 & tr & E1 & S1 & Q1).
    change (h_n L) with n in E1. rewrite E1 in ER. destruct r1 as [u|e|e|]; cbn in ER; try discriminate ER.
    destruct (run (honest L) p s1) as [[r2 s2] e2] eqn:E2. injection ER as _ _ <-. apply S1. rewrite Q1. eapply SM. exact E2.
  - intros x Hx. unfold q in ER. rewrite run_bind in ER. destruct (run (honest L) (updateView c now n m) 0) as [[r1 s1] e1] eqn:E1.
    destruct r1 as [u|e|e|]; cbn in ER; try discriminate ER.
    destruct (run (honest L) p s1) as [[r2 s2] e2] eqn:E2. injection ER as -> <- <-.
    destruct CV as [AD|CV].
    + destruct (view_covers f hs W HF Hsmall Hpos c now m ret fr Hm KP AD EF 0 _ _ _ E1 x Hx) as [H|H]; [auto|]. right. apply touched_app. auto.
    + right. apply touched_app. right. eapply CV; eauto.
Qed.
End Honest.
