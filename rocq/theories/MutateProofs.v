(** Proofs about mutations: the timestamp and the earlier distinguished entry. *)
From Coq Require Import Permutation.
From Verif Require Import Base LogMathModel LogMathSpec LogTreeModel LogTreeSpec LogChunkModel PrefixModel PrefixSpec CodecModel CodecSpec CodecProofs CodecProofs2
  TransMathSpec AlgModel AlgSpec AlgProofs6 HandleModel HandleSpec StoreModel CommitModel MutateModel MutateSpec.
Open Scope N_scope.

(** ** Programs that only ask for timestamps *)

Section TsOnly.
Context {S1 S2 : Type}.
Variable P : provider S1.
Variable Q : provider S2.
Variable inv : S2 -> Prop.
Variable ask : N -> Prop.
Hypothesis HQ : forall s d x r s1, ask x -> inv d -> pTs P s x = (r, s1) -> exists d1, pTs Q d x = (r, d1) /\ inv d1.

Lemma addEv_events {A S} e (r : res A * S * list event) : events (addEv e r) = e :: events r.
Proof. destruct r as [[? ?] ?]. reflexivity. Qed.
Lemma addEv_result {A S} e (r : res A * S * list event) : result (addEv e r) = result r.
Proof. destruct r as [[? ?] ?]. reflexivity. Qed.

Lemma run_ts_only {A} (p : prog A) : forall s d, inv d ->
  Forall (fun e => exists x r, e = EvTs x r /\ ask x) (events (run P p s)) ->
  result (run Q p d) = result (run P p s).
Proof.
  induction p as [a|m|m| |x k IHk e IHe|x v o k IHk e IHe|x v k IHk e IHe|x v k IHk e IHe|x v k IHk|x o g l k IHk]; intros s d Hd F; try reflexivity.
  - cbn [run] in *. destruct (pTs P s x) as [r s1] eqn:E. rewrite addEv_events in F.
    inversion F as [|? ? (x' & r' & E' & A') F']; subst. injection E' as <- <-.
    destruct (HQ _ _ _ _ _ A' Hd E) as (d1 & E1 & Hd1). rewrite E1, !addEv_result. destruct r as [a|m|m|].
    + now apply IHk.
    + now apply IHe.
    + reflexivity.
    + reflexivity.
  - exfalso. cbn [run] in F. destruct (pLadder P s x v o) as [r s1]. rewrite addEv_events in F. inversion F as [|? ? (x' & r' & E' & A') F']; discriminate E'.
  - exfalso. cbn [run] in F. destruct (pMon P s x v) as [r s1]. rewrite addEv_events in F. inversion F as [|? ? (x' & r' & E' & A') F']; discriminate E'.
  - exfalso. cbn [run] in F. destruct (pIncl P s x v) as [r s1]. rewrite addEv_events in F. inversion F as [|? ? (x' & r' & E' & A') F']; discriminate E'.
  - exfalso. cbn [run] in F. cbv zeta in F. rewrite addEv_events in F. inversion F as [|? ? (x' & r' & E' & A') F']; discriminate E'.
  - exfalso. cbn [run] in F. rewrite addEv_events in F. inversion F as [|? ? (x' & r' & E' & A') F']; discriminate E'.
Qed.
End TsOnly.

(** ** The timestamp *)

Lemma sub64_one x : 0 < x < 2 ^ 63 -> sub64 x 1 = x - 1.
Proof.
  change (2 ^ 63) with 9223372036854775808. intro Hx. unfold sub64, w64, two64. change (2 ^ 64) with 18446744073709551616.
  replace (x + 18446744073709551616 - 1) with ((x - 1) + 1 * 18446744073709551616) by lia. rewrite N.mod_add by lia. apply N.mod_small. lia.
Qed.

Section Choose.
Variable f : bytes -> bytes.
Variable hs : N.
Variable c : pubConfig.
Variable s : contents.
Variable E : list epoch.
Variable now : N.
Hypothesis Hsize : lenN E < 2 ^ 63.
Hypothesis Hent : forall x e, nth_error (entriesOf E) (N.to_nat x) = Some e ->
    List.length (le_root e) = N.to_nat hs /\ le_ts e < two64 /\ exists raw, logEntryMarshal e = Ok raw /\ mget (x_entries s) x = Some raw.
Hypothesis Hsort : forall i j e e', (i <= j)%nat -> nth_error (entriesOf E) i = Some e -> nth_error (entriesOf E) j = Some e' -> le_ts e <= le_ts e'.
Hypothesis Hnow : now < two64.
Hypothesis Hlast : forall e, nth_error (entriesOf E) (List.length E - 1) = Some e -> le_ts e <= now.

Let n : N := lenN E.
Let L : hlog := {| h_n := n + 1; h_ts := tsWith E now; h_g := fun _ => (-1)%Z |}.

Lemma entries_len : List.length (entriesOf E) = List.length E.
Proof. unfold entriesOf. apply map_length. Qed.

Lemma entry_at x : x < n -> exists e, nth_error (entriesOf E) (N.to_nat x) = Some e /\ tsWith E now x = le_ts e.
Proof.
  intro Hx. unfold tsWith. destruct (nth_error (entriesOf E) (N.to_nat x)) as [e|] eqn:Ee; [eauto|].
  apply nth_error_None in Ee. rewrite entries_len in Ee. unfold n, lenN in Hx. lia.
Qed.

Lemma ts_new : tsWith E now n = now.
Proof.
  unfold tsWith. destruct (nth_error (entriesOf E) (N.to_nat n)) as [e|] eqn:Ee; [|reflexivity].
  assert (N.to_nat n < List.length (entriesOf E))%nat by (apply nth_error_Some; congruence). rewrite entries_len in H. unfold n, lenN in H. lia.
Qed.

Lemma ts_mono x y : x <= y <= n -> tsWith E now x <= tsWith E now y.
Proof.
  intros [Hxy Hy]. destruct (N.eq_dec y n) as [->|Ny].
  - rewrite ts_new. destruct (N.eq_dec x n) as [->|Nx]; [rewrite ts_new; lia|].
    destruct (entry_at x ltac:(lia)) as (e & Ee & ->). destruct (entry_at (n - 1) ltac:(lia)) as (e' & Ee' & _).
    assert (N.to_nat (n - 1) = List.length E - 1)%nat by (unfold n, lenN; lia). rewrite H in Ee'.
    etransitivity; [|exact (Hlast _ Ee')]. apply (Hsort (N.to_nat x) (List.length E - 1)%nat e e'); [unfold n, lenN in *; lia|exact Ee|exact Ee'].
  - destruct (entry_at x ltac:(lia)) as (e & Ee & ->). destruct (entry_at y ltac:(lia)) as (e' & Ee' & ->).
    eapply Hsort; [|exact Ee|exact Ee']. lia.
Qed.

Lemma ts_bound x : tsWith E now x < two64.
Proof.
  unfold tsWith. destruct (nth_error (entriesOf E) (N.to_nat x)) as [e|] eqn:Ee; [|exact Hnow]. now destruct (Hent _ _ Ee) as (_ & B & _).
Qed.

Lemma okL : okLog L.
Proof.
  unfold okLog, L; cbn. unfold n. split; [change (2 ^ 63) with 9223372036854775808 in Hsize; change (2 ^ 64) with 18446744073709551616; lia|].
  split; [intros x y [A B]; apply ts_mono; unfold n; lia|]. split; [intros; apply ts_bound|]. split; intros; lia.
Qed.

Let hd := producedHandle hs (fun x => mget (x_entries s) x).

Lemma stored x e : nth_error (entriesOf E) (N.to_nat x) = Some e -> getLogEntry hs (fun x => mget (x_entries s) x) x = Ok e.
Proof.
  intro Ee. destruct (Hent _ _ Ee) as (A & B & raw & C & D). unfold getLogEntry. rewrite D.
  destruct (codec_logEntry (N.to_nat hs)) as (RT & _). specialize (RT e raw [] (conj B A) C). rewrite app_nil_r in RT. rewrite RT. reflexivity.
Qed.

Definition tsFine (d : dataProvider produced) : Prop := Forall (fun e => fst e <= n /\ snd e = tsWith E now (fst e)) (d_ts d).

Lemma mget_In {V} (m : list (N * V)) k v : mget m k = Some v -> In (k, v) m.
Proof.
  induction m as [|[k' v'] t IH]; cbn; [discriminate|]. destruct (N.eqb_spec k k') as [->|]; [intros [= ->]; now left|]. auto.
Qed.

Lemma addTimestamp_fine d x : tsFine d -> x <= n -> mget (d_ts d) x = None ->
  addTimestamp (d_ts d) x (tsWith E now x) = Ok (mput (d_ts d) x (tsWith E now x)).
Proof.
  intros F Hx Nx. unfold addTimestamp, mhas. rewrite Nx.
  destruct (existsb _ _) eqn:Ex; [|reflexivity]. apply existsb_exists in Ex. destruct Ex as ([y t] & Iy & C). cbn in C.
  apply (proj1 (Forall_forall _ _) F) in Iy. cbn in Iy. destruct Iy as [Hy ->].
  destruct (N.ltb_spec x y); cbn in C.
  - pose proof (ts_mono x y ltac:(lia)). rewrite (proj2 (N.ltb_ge _ _)) in C by lia. cbn in C.
    destruct (N.ltb_spec y x); [lia|]. discriminate.
  - destruct (N.ltb_spec y x); [|discriminate]. pose proof (ts_mono y x ltac:(lia)). cbn in C. apply N.ltb_lt in C. lia.
Qed.

Lemma dpTs_fine d x : tsFine d -> x < n \/ x = n /\ mget (d_ts d) n <> None ->
  exists d', dpTs hd d x = (Ok (tsWith E now x), d') /\ tsFine d' /\ (mget (d_ts d) n <> None -> mget (d_ts d') n <> None) /\
    (d_roots d' = d_roots d) /\ (forall y, y <> x -> mget (d_ts d') y = mget (d_ts d) y).
Proof.
  intros F Hx. unfold dpTs. destruct (mget (d_ts d) x) as [t|] eqn:G.
  - exists d. apply mget_In in G. apply (proj1 (Forall_forall _ _) F) in G. cbn in G. destruct G as [_ ->]. repeat split; auto.
  - destruct Hx as [Hx|[-> B]]; [|congruence]. destruct (entry_at x Hx) as (e & Ee & Et).
    unfold hd. cbn [hTs producedHandle]. unfold qTs. rewrite (stored _ _ Ee). cbn [bind keepingQ]. rewrite <- Et.
    cbn [d_ts withHandle]. rewrite (addTimestamp_fine d x F ltac:(lia) G).
    eexists. split; [reflexivity|]. cbn [d_ts withTs withHandle d_roots]. split; [|split; [|split]].
    + constructor; [cbn; split; [lia|reflexivity]|exact F].
    + intro B. unfold mput. cbn [mget]. destruct (N.eqb_spec n x); [lia|exact B].
    + reflexivity.
    + intros y Ny. unfold mput. cbn [mget]. destruct (N.eqb_spec y x); congruence.
Qed.

Lemma choose_ok : exists o, chooseTimestamp hs c now n s = Ok o /\ greatestOf (earlierDistinguished c E now) o.
Proof.
  unfold chooseTimestamp. set (d0 := newDataProvider (newProduced [])). fold hd.
  assert (F0 : tsFine d0) by constructor.
  assert (exists d1, (if 0 <? n then let (r, d) := dpTs hd d0 (sub64 n 1) in
       let* rightmost := r in
       if now <? rightmost then Fail "refusing to issue tree head: current timestamp is less than previous timestamp" else Ok d
     else Ok d0) = Ok d1 /\ tsFine d1 /\ d_roots d1 = [] /\ mget (d_ts d1) n = None) as (d1 & E1 & F1 & R1 & N1).
  { destruct (N.ltb_spec 0 n) as [Hn|Hn]; [|exists d0; repeat split; auto].
    assert (Es : sub64 n 1 = n - 1) by (apply sub64_one; unfold n in *; lia).
    rewrite Es. assert (Hl : n - 1 < n) by lia. destruct (dpTs_fine d0 (n - 1) F0 (or_introl Hl)) as (d1 & -> & F1 & _ & R1 & O1). cbn [bind].
    pose proof (ts_mono (n - 1) n ltac:(lia)) as M. rewrite ts_new in M. rewrite (proj2 (N.ltb_ge _ _)) by exact M.
    exists d1. split; [reflexivity|]. split; [exact F1|]. split; [now rewrite R1|]. rewrite O1 by lia. reflexivity. }
  rewrite E1. cbn [bind].
  assert (exists d2, match addRetained d1 [] [(n, {| le_ts := now; le_root := [] |})] with Ok d => d | _ => d1 end = d2 /\ tsFine d2 /\ mget (d_ts d2) n <> None) as (d2 & -> & F2 & N2).
  { unfold addRetained. cbn [foldM fst snd le_ts le_root d_ts]. pose proof (addTimestamp_fine d1 n F1 ltac:(lia) N1) as A. rewrite ts_new in A. rewrite A.
    cbn [bind]. cbn [d_roots]. rewrite R1. cbn. eexists. split; [reflexivity|]. cbn. split.
    - constructor; [cbn; rewrite ts_new; split; [lia|reflexivity]|exact F1].
    - rewrite N.eqb_refl. discriminate. }
  replace (add64 n 1) with (h_n L).
  2: { unfold L; cbn. unfold add64, w64, two64. change (2 ^ 64) with 18446744073709551616. rewrite N.mod_small; [reflexivity|]. unfold n. change (2 ^ 63) with 9223372036854775808 in Hsize. lia. }
  destruct (c17_previous c L 0 okL) as (o & Eo & G & Ev). exists o. split.
  - change (result (run (dpProvider hd) (previousRightmost c (h_n L)) d2) = Ok o). rewrite <- Eo.
    apply (run_ts_only (honest L) (dpProvider hd) (fun d => tsFine d /\ mget (d_ts d) n <> None) (fun x => x <= n)).
    + intros s0 d x r s1 Hx [Fd Nd] Ep. cbn in Ep. rewrite (proj2 (N.ltb_lt _ _)) in Ep by lia. injection Ep as <- <-.
      destruct (dpTs_fine d x Fd) as (d' & Ed & Fd' & Nd' & _); [destruct (N.eq_dec x n); [right; split; [assumption|exact Nd]|left; lia]|].
      exists d'. split; [exact Ed|]. split; [exact Fd'|auto].
    + split; [exact F2|exact N2].
    + eapply Forall_impl; [|exact Ev]. intros ev (x & r & -> & D). exists x, r. split; [reflexivity|].
      replace (h_n L - 1) with n in D by (unfold L; cbn; lia). destruct D as [->|(l & SF & I)]; [lia|].
      assert (FL : forall a len l, SFront a len l -> Forall (fun x => x < a + len) l).
      { clear. intros a len l SF. induction SF as [a len Hl|a len rest Hr SF IH]; constructor; auto.
        - unfold sroot. lia.
        - unfold sroot. lia.
        - eapply Forall_impl; [|exact IH]. unfold sroot. intros y. cbn beta. lia. }
      apply FL in SF. apply (proj1 (Forall_forall _ _) SF) in I. lia.
  - replace (h_n L - 1) with n in G by (unfold L; cbn; lia). exact G.
Qed.
End Choose.

Lemma choose_late hs c s E now : lenN E < 2 ^ 63 ->
  (forall x e, nth_error (entriesOf E) (N.to_nat x) = Some e ->
    List.length (le_root e) = N.to_nat hs /\ le_ts e < two64 /\ exists raw, logEntryMarshal e = Ok raw /\ mget (x_entries s) x = Some raw) ->
  forall e, (0 < List.length E)%nat -> nth_error (entriesOf E) (List.length E - 1) = Some e -> now < le_ts e ->
  exists msg, chooseTimestamp hs c now (lenN E) s = Fail msg.
Proof.
  intros Hsize Hent e Hl Ee Hn. unfold chooseTimestamp. rewrite (proj2 (N.ltb_lt 0 (lenN E))) by (unfold lenN; lia).
  rewrite sub64_one by (unfold lenN in *; lia). unfold dpTs. cbn [newDataProvider d_ts mget].
  unfold producedHandle at 1. cbn [hTs]. unfold qTs. rewrite (stored hs s E Hent (lenN E - 1) e).
  2: { rewrite <- Ee. f_equal. unfold lenN. lia. }
  cbn [bind keepingQ]. cbn. rewrite (proj2 (N.ltb_lt _ _)) by exact Hn. cbn [bind]. eauto.
Qed.
