(** The server's answer to the initialization of a label owner. *)
From Coq Require Import Sorted Permutation.
From Verif Require Import Base BaseProofs LogMathSpec LogTreeModel LogTreeSpec PrefixModel PrefixSpec PrefixHistProofs TransMathModel TransMathSpec LaddersModel
  CodecModel CodecSpec AlgModel AlgSpec AlgExamples AlgProofs AlgProofs4 AlgProofs6 WatchSpec WatchProofs WatchProofs3 HandleModel HandleSpec HandleProofs HandleProofs5 HandleProofs7
  StoreModel CommitModel MutateModel MutateSpec ServerModel ClientModel ClientSpec MutateProofs2 MutateProofs5 SearchProofs SearchProofs2 AnswerSpec AnswerProofs AnswerProofs2.
Open Scope N_scope.
Local Open Scope list_scope.

Definition wholeState (index : list N) : ownerState := {| os_starting := 0; os_verAt := (-1)%Z; os_upcoming := index |}.

Lemma whole_at index x : StronglySorted N.le index -> x < two64 - 1 -> greatestVersionAt (wholeState index) x = Ok (Z.of_nat (countLe x index) - 1)%Z.
Proof. intros S Hx. unfold greatestVersionAt, wholeState. cbn [os_upcoming os_verAt]. destruct (bsearch_spec index x S Hx) as [-> _]. cbn. f_equal. Qed.

Lemma count_zero x y index : x <= y -> countLe y index = 0%nat -> countLe x index = 0%nat.
Proof.
  intros H. unfold countLe. induction index as [|a l IH]; cbn; [auto|]. destruct (N.leb_spec a y), (N.leb_spec a x); cbn; try discriminate; try lia; auto.
Qed.

Lemma versions_are index : StronglySorted N.le index -> lenN index < 2 ^ 31 -> forall xs, Forall (fun x => x < two64 - 1) xs -> StronglySorted (fun a b => b < a) xs ->
  exists vers, versionsAt (wholeState index) xs = Ok vers /\ (List.length vers <= List.length xs)%nat /\ Forall (fun v => v < 2 ^ 31 - 1) vers /\
    forall i x, nth_error xs i = Some x -> (Z.of_nat (countLe x index) - 1)%Z = claimed vers i.
Proof.
  intros S Hl. change (2 ^ 31) with 2147483648 in Hl. induction xs as [|x xs IH]; intros F D.
  - exists []. cbn. repeat split; auto. intros [|i] y; discriminate.
  - inversion F as [|? ? F1 F2]; subst. inversion D as [|? ? D1 D2]; subst. cbn [versionsAt]. rewrite whole_at by assumption. cbn [bind].
    pose proof (count_short x index) as Sh.
    destruct (Z.eqb_spec (Z.of_nat (countLe x index) - 1) (-1)) as [E|E].
    + exists []. cbn [List.length]. repeat split; [lia|constructor|]. intros i y Ei. assert (Ly : y <= x).
      { destruct i as [|i]; cbn in Ei; [injection Ei as ->; lia|]. apply nth_error_In in Ei. rewrite Forall_forall in D2. apply D2 in Ei. lia. }
      assert (countLe x index = 0%nat) by lia. rewrite (count_zero y x index Ly H). unfold claimed. now destruct i.
    + destruct (IH F2 D1) as (vers & Ev & L & Fv & C). rewrite Ev. cbn [bind]. eexists. split; [reflexivity|]. split; [cbn; lia|].
      assert (T : Z.of_N (toU32 (Z.of_nat (countLe x index) - 1)) = (Z.of_nat (countLe x index) - 1)%Z).
      { unfold toU32. unfold lenN in Hl. rewrite Z.mod_small by lia. lia. }
      split.
      * constructor; [|exact Fv]. change (2 ^ 31 - 1) with 2147483647. unfold lenN in Hl. lia.
      * intros [|i] y Ei; cbn in Ei.
        -- injection Ei as <-. unfold claimed. cbn [nth_error]. now rewrite T.
        -- exact (C i y Ei).
Qed.

Lemma ladders_there vers : Forall (fun v => v < 2 ^ 31 - 1) vers -> exists ladder, allLadderVersions vers = Ok ladder.
Proof.
  intro F. unfold allLadderVersions.
  assert (exists ls, mapM (fun v => searchBinaryLadder v v [] []) vers = Ok ls) as (ls & ->).
  { induction F as [|v vers Hv F IH]; cbn [mapM]; [eauto|]. destruct (search_ladder_ok v Hv) as (l & ->). destruct IH as (ls & ->). cbn. eauto. }
  cbn. eauto.
Qed.

Lemma set_there : forall coms steps, (List.length coms <= List.length steps)%nat -> exists out, setCommitments steps coms = Ok out.
Proof.
  induction coms as [|com coms IH]; intros [|st steps] L; cbn in *; eauto; [lia|]. destruct (IH steps) as (out & ->); [lia|]. cbn. eauto.
Qed.

Section Init.
Variable f : bytes -> bytes.
Variable hs : N.
Hypothesis Hf : forall x, lenN (f x) = hs.
Hypothesis Hhs : 0 < hs <= 32.
Variable c : pubConfig.
Variable vrf : bytes -> bytes * bytes.
Variable Ls : list bytes.
Hypothesis HV : vrfGood hs vrf Ls.
Variable sign : bytes -> res bytes.
Variable now : N.
Local Notation valid := (fun tbs sg : bytes => sign tbs = Ok sg).

Lemma outs_there l versions : lenN l <= 255 -> exists outs, mapM (computeVrfOutput vrf l) versions = Ok outs /\ Forall2 (fun v o => fst o = keyOf vrf l v) versions outs.
Proof.
  intro Hl. induction versions as [|v versions (outs & E & F)]; cbn [mapM]; [eauto|].
  unfold computeVrfOutput at 1. destruct (vrfInput_short l v Hl) as [input Ei]. rewrite Ei. cbn [bind]. rewrite E. cbn [bind].
  eexists. split; [reflexivity|]. constructor; [|exact F]. unfold keyOf. rewrite Ei. now destruct (vrf input).
Qed.

Lemma keys_sized l versions outs greatest : In l Ls -> (greatest < 2 ^ 31)%Z -> Forall2 (fun v (o : bytes * bytes) => fst o = keyOf vrf l v) versions outs ->
  Forall (fun k : bytes => List.length k = N.to_nat hs) (map (fun x : N * (bytes * bytes) => fst (snd x)) (filter (fun x => (Z.of_N (fst x) <=? greatest)%Z) (combine versions outs))).
Proof.
  intros Hl Hg. destruct HV as (_ & HK & _). induction 1 as [|v o vs os E F IH]; cbn; [constructor|]. destruct (Z.leb_spec (Z.of_N v) greatest); [|exact IH].
  cbn. constructor; [|exact IH]. rewrite E. apply HK; [exact Hl|]. change (2 ^ 31)%Z with 2147483648%Z in Hg. change (2 ^ 32) with 4294967296. lia.
Qed.

Lemma ladder_there t E l versions greatest : treeOf f hs vrf Ls c valid t E -> E <> [] -> In l Ls -> faithful f hs (worldOf f hs vrf (durable (t_tx t)) E l) ->
  (greatest < 2 ^ 31)%Z -> exists steps, getBinaryLadder (full f) hs vrf (serverOf t) l versions greatest (lenN (entriesOf E)) = Ok steps.
Proof.
  intros T HE Hl HF Hg. set (W := worldOf f hs vrf (durable (t_tx t)) E l) in *. pose proof (SearchProofs.Hn1 f hs W HF) as NB. change (lenN (w_entries W)) with (lenN (entriesOf E)) in NB.
  unfold getBinaryLadder. destruct (outs_there l versions) as (outs & Eo & Fo); [apply HV, Hl|]. rewrite Eo. cbn [bind].
  pose proof (keys_sized l versions outs greatest Hl Hg Fo) as KS.
  assert (Ln : (List.length (map (fun x : N * (bytes * bytes) => fst (snd x)) (filter (fun x => (Z.of_N (fst x) <=? greatest)%Z) (combine versions outs))) <= List.length outs)%nat).
  { rewrite map_length. clear. revert outs. induction versions as [|v vs IH]; intros [|o os]; cbn; try lia. specialize (IH os). destruct (Z.of_N v <=? greatest)%Z; cbn; lia. }
  set (keys := map _ (filter _ (combine versions outs))) in *.
  assert (exists p coms, search (full f) (N.to_nat hs) (x_prefix (sv_db (serverOf t))) (lenN (entriesOf E)) keys = Ok (p, coms) /\ List.length coms = List.length keys) as (p & coms & -> & Lc).
  { destruct keys as [|k0 ks].
    - unfold search. destruct (N.eqb_spec (lenN (entriesOf E)) 0); [lia|]. eexists _, _. split; reflexivity.
    - pose proof HF as (_ & _ & _ & _ & _ & _ & (vs & Hh & HVs) & _). destruct (HVs (lenN (entriesOf E) - 1)) as (m & Em & _); [cbn [w_entries W worldOf]; lia|].
      assert (HfL : forall x, List.length (f x) = N.to_nat hs) by (intro x; specialize (Hf x); unfold lenN in Hf; lia).
      destruct (hist_search f (N.to_nat hs) HfL ltac:(lia) (w_prefixDb W) vs (lenN (entriesOf E)) m (le_root (entryAt W (lenN (entriesOf E) - 1))) (k0 :: ks) Hh) as (proof & Sr & _).
      + rewrite <- Em. f_equal. lia.
      + lia.
      + discriminate.
      + exact KS.
      + exists proof, (map m (k0 :: ks)). split; [exact Sr|apply map_length]. }
  cbn [bind]. apply set_there. rewrite Lc, map_length. exact Ln.
Qed.

End Init.

Section Algo.
Variable c : pubConfig.

Lemma truthful L {A} (p : prog A) : forall s, Forall (trueEvent L) (snd (run (honest L) p s)).
Proof.
  induction p as [a|m|m| |x k IH e IHe|x v o k IH e IHe|x v k IH e IHe|x v k IH e IHe|x v k IH|x o g l k IH]; intro s; cbn; try constructor.
  - destruct (N.ltb_spec x (h_n L)); cbn.
    + specialize (IH (h_ts L x) s). destruct (run _ _ s) as [[r s'] l]. cbn in *. constructor; [intros _; reflexivity|exact IH].
    + match goal with |- context [run _ (e ?m) ?s] => specialize (IHe m s); destruct (run (honest L) (e m) s) as [[r s'] l] end. cbn in *. constructor; [exact Logic.I|exact IHe].
  - destruct (N.ltb_spec x (h_n L)); cbn.
    + specialize (IH (cmp3 (h_g L x) v) (s + 1)). destruct (run _ _ (s + 1)) as [[r s'] l]. cbn in *. constructor; [intros _; reflexivity|exact IH].
    + match goal with |- context [run _ (e ?m) ?s] => specialize (IHe m s); destruct (run (honest L) (e m) s) as [[r s'] l] end. cbn in *. constructor; [exact Logic.I|exact IHe].
  - destruct ((x <? h_n L) && (Z.of_N v <=? h_g L x)%Z) eqn:B; cbn.
    + specialize (IH (s + 1)). destruct (run _ _ (s + 1)) as [[r s'] l]. cbn in *. constructor; [intros _; apply andb_true_iff in B as [_ B]; now apply Z.leb_le in B|exact IH].
    + match goal with |- context [run _ (e ?m) ?s] => specialize (IHe m s); destruct (run (honest L) (e m) s) as [[r s'] l] end. cbn in *. constructor; [exact Logic.I|exact IHe].
  - destruct ((x <? h_n L) && forallb (fun v => (Z.of_N v <=? h_g L x)%Z) v) eqn:B; cbn.
    + match goal with |- context [run _ k ?s] => specialize (IH s); destruct (run (honest L) k s) as [[r s'] l] end. cbn in *. constructor; [|exact IH].
      intros _. apply andb_true_iff in B as [_ B]. apply Forall_forall. rewrite forallb_forall in B. intros u I. apply B in I. now apply Z.leb_le in I.
    + match goal with |- context [run _ (e ?m) ?s] => specialize (IHe m s); destruct (run (honest L) (e m) s) as [[r s'] l] end. cbn in *. constructor; [exact Logic.I|exact IHe].
  - match goal with |- context [run _ (k ?b) s] => specialize (IH b s); destruct (run (honest L) (k b) s) as [[r s'] l] end. cbn in *. constructor; [exact Logic.I|exact IH].
  - specialize (IH s). destruct (run (honest L) k s) as [[r s'] l']. cbn in *. constructor; [exact Logic.I|exact IH].
Qed.

Lemma DIn_same (ts ts' : N -> N) w n : 1 <= n < 2 ^ 64 -> forall a len left right y, DIn ts w a len left right y -> SRange n a len -> (forall x, x < n -> ts x = ts' x) -> DIn ts' w a len left right y.
Proof.
  intros Hn a len left right y D. induction D as [a len l r H|a len l r y H1 H2 D IH|a len l r y H1 H2 D IH]; intros R Q.
  - now constructor.
  - apply DI_left; auto. rewrite <- Q by exact (nav_lt n a len Hn R). apply IH; auto. constructor; auto.
  - apply DI_right; auto. rewrite <- Q by exact (nav_lt n a len Hn R). apply IH; auto. constructor; auto.
Qed.


Lemma exec_run {A} (hd : handleIf produced) (p : prog A) d a d' : exec hd p d = Ok (a, d') <-> exists l, run (dpProvider hd) p d = (Ok a, d', l).
Proof.
  unfold exec. destruct (run (dpProvider hd) p d) as [[[r|e|e|] s] l]; cbn; split; try discriminate; try (intros (l' & [=]); fail).
  - intros [= -> <-]. eauto.
  - intros (l' & [= -> <- _]). reflexivity.
Qed.

Lemma init_true0 L m start s xs s' l : okLog L -> watches m L -> run (honest L) (initEntries c m start) s = (Ok xs, s', l) ->
  distinguished (h_n L) (h_ts L) (pc_rmw c) start /\ unexpired c L start.
Proof.
  intros HL Wm H. pose proof (okLog_times L HL) as HT. pose proof (w_n L HT) as Hn.
  assert (F : Forall (trueEvent L) l) by (pose proof (truthful L (initEntries c m start) s) as K; rewrite H in K; exact K).
  rewrite (initEntries_eq c L HT m start Wm) in H. destruct Wm as (Em & Er).
  apply (init_true c L HT (honest L) m start 66 Em Er 0 (h_n L) 0 (h_ts L (h_n L - 1)) s xs s' l) in H; auto.
  - destruct H as (D & Fs & _). split; [exact D|exact Fs].
  - constructor.
  - intros y Hy. split; [lia|]. apply (w_mono L HT). lia.
  - apply (w_64 L HT). lia.
Qed.

Lemma init_honest0 L m start : okLog L -> watches m L -> distinguished (h_n L) (h_ts L) (pc_rmw c) start -> unexpired c L start -> mo_owner m = None ->
  exists xs, initialEntries c L start xs /\ Forall (fun x => x < h_n L) xs /\
  forall vers, (List.length vers <= List.length xs)%nat -> (forall i x, nth_error xs i = Some x -> h_g L x = claimed vers i) ->
   exists m', result (run (honest L) (pbind (initEntries c m start) (fun xs => pbind (ownerInit c m start vers) (fun r => Ret (xs, r)))) 0) = Ok (xs, (xs, m')).
Proof.
  intros HL Wm D U Eo. pose proof (okLog_times L HL) as HT. pose proof (w_n L HT) as Hn. pose proof Wm as (Em & Er).
  destruct (init_honest c L HT HL m start 66 Em Er U 0 (h_n L) 0 (h_ts L (h_n L - 1)) 0) as (xs & s1 & A & FD); auto.
  - constructor.
  - intros y Hy. split; [lia|]. apply (w_mono L HT). lia.
  - apply (w_64 L HT). lia.
  - pose proof (log_fuel (h_n L) 0 (h_n L) Hn (SR_root _)). lia.
  - destruct FD as (_ & _ & ys & Exs & SS & I). assert (Hst : start < h_n L) by (apply DIn_range in D; lia).
    assert (HFx : Forall (fun x => x < h_n L) xs).
    { rewrite Exs. constructor; auto. rewrite Forall_forall. intros y Hy. apply I in Hy. lia. }
    assert (HI : initialEntries c L start xs).
    { exists ys. split; [exact Exs|]. split; [exact SS|]. intro y. rewrite I. unfold unexpired. split; intros (B & C & C'); repeat split; auto; lia. }
    exists xs. split; [exact HI|]. split; [exact HFx|]. intros vers Lv Cv.
    destruct (ownerInit_honest c L HT HL m start vers s1 Wm Eo D U) as (xs2 & HI2 & K).
    assert (xs2 = xs) as ->.
    { clear -HI HI2. destruct HI as (ys & -> & S & G), HI2 as (ys2 & -> & S2 & G2). f_equal. apply StronglySorted_inv in S as [S _]. apply StronglySorted_inv in S2 as [S2 _].
      assert (G3 : forall y, In y ys2 <-> In y ys) by (intro y; rewrite G, G2; reflexivity). clear G G2. revert ys2 S2 G3. induction S as [|a l S IH F]; intros ys2 S2 G3.
      - destruct ys2 as [|b l2]; [reflexivity|]. destruct (proj1 (G3 b) (or_introl eq_refl)).
      - destruct S2 as [|b l2 S2 F2]; [destruct (proj2 (G3 a) (or_introl eq_refl))|]. rewrite Forall_forall in F, F2.
        assert (a = b) as <-.
        { destruct (proj1 (G3 b) (or_introl eq_refl)) as [E|I1]; [exact E|]. destruct (proj2 (G3 a) (or_introl eq_refl)) as [E|I2]; [now symmetry|]. apply F in I1. apply F2 in I2. lia. }
        f_equal. apply IH; [exact S2|]. intro y. split; intro I.
        + destruct (proj1 (G3 y) (or_intror I)) as [<-|J]; [|exact J]. apply F2 in I. lia.
        + destruct (proj2 (G3 y) (or_intror I)) as [<-|J]; [|exact J]. apply F in I. lia. }
    destruct (K Lv Cv) as (m' & Rm). exists m'. destruct A as (l & A & _).
    rewrite (initEntries_eq c L HT m start Wm), run_bind, A. cbn [andThen]. rewrite run_bind. destruct (run (honest L) (ownerInit c m start vers) s1) as [[r s2] l2]. cbn in Rm. subst r. reflexivity.
Qed.

Definition ended {A} (r : res A) : Prop := match r with Ok _ | Fail _ => True | _ => False end.

Lemma ended_left {A B S} (P : provider S) (p : prog A) (k : A -> prog B) s : ended (result (run P (pbind p k) s)) -> ended (result (run P p s)).
Proof. rewrite run_bind. destruct (run P p s) as [[[r|e|e|] s'] evs]; cbn; auto. Qed.

Lemma entries_end L m start : 1 <= mo_size m < 2 ^ 64 -> mo_owner m = None -> ended (result (run (honest L) (initEntries c m start) 0)).
Proof.
  intros Hn Eo. destruct (c65_total c N (honest L) 0 (honest_tame L)) as (_ & K). destruct (K m Hn) as (_ & K2 & _). specialize (K2 start []). unfold ownerInit in K2. rewrite Eo in K2.
  eapply ended_left. exact K2.
Qed.

Lemma catch_fails {S A} (P : provider S) (p : prog A) s e s' l : run P p s = (Fail e, s', l) -> result (run P (pcatch (pbind p (fun a => Ret (Some a))) (fun _ => Ret None)) s) = Ok None.
Proof. intro R. rewrite run_catch, run_bind, R. reflexivity. Qed.

Lemma catch_fine {S A} (P : provider S) (p : prog A) s a s' l r s2 l2 : run P p s = (Ok a, s', l) -> run P (pcatch (pbind p (fun a => Ret (Some a))) (fun _ => Ret None)) s = (Ok r, s2, l2) -> r = Some a.
Proof. intros R. rewrite run_catch, run_bind, R. cbn. intros [= <- _ _]. reflexivity. Qed.
End Algo.
