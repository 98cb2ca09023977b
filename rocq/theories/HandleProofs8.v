(** Searches with the versions of the ladder given in advance: which versions are asked for, and an exchange between a server
    and a client each of which was given the versions before the search. *)
From Coq Require Import Sorted Permutation.
From Verif Require Import Base BaseProofs LogMathSpec LogTreeModel LogTreeSpec LogChunkModel LogChunkProofs7 PrefixModel PrefixSpec PrefixHistProofs TransMathModel LaddersModel LaddersProofs
  CodecModel CodecSpec CodecProofs CodecProofs2 AlgModel AlgSpec AlgProofs AlgProofs4 HandleModel HandleSpec HandleProofs HandleProofs2 HandleProofs3.
Open Scope N_scope.
Local Open Scope list_scope.

(** ** Programs that ask only about one version *)

Fixpoint only {A} (ver : N) (p : prog A) : Prop :=
  match p with
  | Ret _ | Err _ | Crash _ | Diverge => True
  | GetTs x k e => (forall a, only ver (k a)) /\ (forall m, only ver (e m))
  | GetLadder x v o k e => v = ver /\ (forall a, only ver (k a)) /\ (forall m, only ver (e m))
  | GetMonitoring x v k e => False
  | GetIncl x vs k e => vs = [ver] /\ only ver k /\ (forall m, only ver (e m))
  | StopCond x v k => forall b, only ver (k b)
  | TrackLadder x o g l k => only ver k
  end.

Lemma only_bind {A B} ver (p : prog A) (k : A -> prog B) : only ver p -> (forall a, only ver (k a)) -> only ver (pbind p k).
Proof. intros Hp Hk. induction p; cbn [only pbind] in *; intuition. Qed.
Lemma only_catch {A} ver (p : prog A) h : only ver p -> (forall m, only ver (h m)) -> only ver (pcatch p h).
Proof. intros Hp Hk. induction p; cbn [only pcatch] in *; intuition. Qed.
Lemma only_lift {A} ver (r : res A) : only ver (lift r).
Proof. destruct r; exact I. Qed.
Lemma only_getTs ver x : only ver (getTs x).
Proof. cbn. auto. Qed.

Ltac only1 :=
  repeat first
    [ exact I | apply only_lift | apply only_getTs | apply only_bind; [|intros] | apply only_catch; [|intros]
    | match goal with |- only _ (if ?b then _ else _) => destruct b | |- only _ (match ?x with _ => _ end) => destruct x end ].

Lemma only_all ver xs : only ver (getAllTs xs).
Proof. induction xs; cbn [getAllTs]; only1. exact IHxs. Qed.

Lemma only_view ver c now n m : only ver (updateView c now n m).
Proof. unfold updateView. only1. apply only_all. Qed.

Lemma only_rightmost_loop ver c fuel : forall n r x, only ver (rightmost_loop c fuel n r x).
Proof. induction fuel; intros; cbn [rightmost_loop]; only1. apply IHfuel. Qed.
Lemma only_rightmost ver c n : only ver (rightmostDistinguished c n).
Proof.
  unfold rightmostDistinguished. destruct (n =? 0); [exact I|]. apply only_bind; [apply only_getTs|]. intro. destruct (negb _); [exact I|]. apply only_rightmost_loop.
Qed.

Lemma only_greatest_loop ver fuel : forall n x t, only ver (greatest_loop fuel ver n x t).
Proof. induction fuel; intros; cbn [greatest_loop]; only1; try apply IHfuel. cbn. auto. Qed.
Lemma only_greatest ver c n : only ver (greatestVersionSearch c ver n).
Proof.
  unfold greatestVersionSearch. destruct (n =? 0); [exact I|]. apply only_bind; [|intros [|d]; [exact I|apply only_greatest_loop]].
  apply only_catch; [|intro; exact I]. apply only_bind; [apply only_rightmost|intro; exact I].
Qed.

Lemma only_fixed_finish ver t b d : only ver (fixed_finish ver t b d).
Proof. unfold fixed_finish. only1. cbn. auto. Qed.
Lemma only_fixed_loop ver c fuel : forall n r x t e l rr d, only ver (fixed_loop c fuel ver n r x t e l rr d).
Proof.
  induction fuel; intros; cbn [fixed_loop]; only1; try apply IHfuel; try apply only_fixed_finish. cbn. auto.
Qed.
Lemma only_fixed ver c n : only ver (fixedVersionSearch c ver n).
Proof. unfold fixedVersionSearch. destruct (n =? 0); [exact I|]. apply only_bind; [apply only_getTs|]. intro. apply only_fixed_loop. Qed.

(** The server asks its prefix tree only about versions in the base ladder of that version. *)
Section Asked.
Variable hs : N.
Variable db : N -> option bytes.
Variable ver : N.
Variable base : list N.
Hypothesis Hbase : baseBinaryLadder ver = Ok base.
Hypothesis Hzero : In 0 base.
Hypothesis Hver : In ver base.

Definition within (q : produced) : Prop := Forall (fun y => incl (snd y) base) (q_proofs q).

Lemma keepingQ_within {A} q (r : res (A * produced)) : within q -> (forall a q', r = Ok (a, q') -> within q') -> within (snd (keepingQ q r)).
Proof. intros Hq K. destruct r as [[a q']| | |]; cbn; auto. eapply K. reflexivity. Qed.

Lemma push_within q x l tr : within q -> incl l base -> within (qPush q x l tr).
Proof. intros Hq Hl. unfold within. cbn. apply Forall_app. split; [exact Hq|]. constructor; [exact Hl|constructor]. Qed.

Lemma qTs_within q x : within q -> within (snd (qTs hs db q x)).
Proof.
  intro Hq. unfold qTs. apply keepingQ_within; [exact Hq|]. intros a q' E. destruct (getLogEntry _ _ x); try discriminate. cbn in E. injection E as _ <-. exact Hq.
Qed.
Lemma qLadder_within q x o : within q -> within (snd (qLadder hs db q x ver o)).
Proof.
  intro Hq. unfold qLadder. apply keepingQ_within; [exact Hq|]. intros a q' E. destruct (greatestAt q x) as [g| | |]; try discriminate. cbn [bind] in E.
  assert (HI : forall l, (if (g <? 0)%Z then Ok [0] else let (li, rn) := searchMaps (q_tracker q) x o in searchBinaryLadder ver (toU32 g) li rn) = Ok l -> incl l base).
  { intros l El. destruct (g <? 0)%Z.
    - injection El as <-. intros v [<-|[]]. exact Hzero.
    - destruct (searchMaps (q_tracker q) x o) as [li rn]. unfold searchBinaryLadder in El. rewrite Hbase in El. cbn [bind] in El. injection El as <-. intros v. apply loop_subset. }
  destruct (if (g <? 0)%Z then _ else _) as [l| | |]; try discriminate. cbn [bind] in E.
  destruct (getLogEntry _ _ x); try discriminate. cbn [bind] in E. injection E as _ <-. apply push_within; auto.
Qed.
Lemma qIncl_within q x : within q -> within (snd (qIncl hs db q x [ver])).
Proof.
  intro Hq. unfold qIncl. apply keepingQ_within; [exact Hq|]. intros a q' E. destruct (getLogEntry _ _ x); try discriminate. cbn [bind] in E. injection E as _ <-.
  apply push_within; auto. intros v [<-|[]]. exact Hver.
Qed.

Local Notation PH := (producedHandle hs db).
Lemma dpTs_within d x : within (d_handle d) -> within (d_handle (snd (dpTs PH d x))).
Proof.
  intro Hd. unfold dpTs. destruct (mget (d_ts d) x); [exact Hd|]. pose proof (qTs_within (d_handle d) x Hd) as Q. cbn [producedHandle hTs].
  destruct (qTs hs db (d_handle d) x) as [[ts|e|e|] h]; cbn in *; try exact Q.
  destruct (addTimestamp (d_ts d) x ts); exact Q.
Qed.
Lemma dpRoot_within {A} (d : dataProvider produced) x (r : res (bytes * A)) h : within h -> within (d_handle (snd (dpRoot d x r h))).
Proof.
  intro Q. unfold dpRoot. destruct r as [[root a]|e|e|]; try exact Q. cbn. destruct (addPrefixTree (d_roots d) x root); exact Q.
Qed.

Lemma final_ev {A S} e (r : res A * S * list event) : final (addEv e r) = final r.
Proof. destruct r as [[a s] l]. reflexivity. Qed.

Lemma run_within {A} (p : prog A) : only ver p -> forall d, within (d_handle d) -> within (d_handle (final (run (dpProvider PH) p d))).
Proof.
  induction p; intros Ho d Hd; cbn [run]; try exact Hd; cbn [only] in Ho.
  - destruct Ho as [O1 O2]. pose proof (dpTs_within d x Hd) as Q. cbn [dpProvider pTs]. destruct (dpTs PH d x) as [r d']. rewrite final_ev. destruct r; auto.
  - destruct Ho as (-> & O1 & O2). assert (Q : within (d_handle (snd (dpLadder PH d x ver omit)))).
    { unfold dpLadder. pose proof (dpTs_within d x Hd) as Q. destruct (dpTs PH d x) as [[t|e0|e0|] d1]; cbn in *; try exact Q.
      pose proof (qLadder_within (d_handle d1) x omit Q) as Q'. destruct (qLadder hs db (d_handle d1) x ver omit) as [r h]. now apply dpRoot_within. }
    cbn [dpProvider pLadder]. destruct (dpLadder PH d x ver omit) as [r d']. rewrite final_ev. destruct r; auto.
  - destruct Ho.
  - destruct Ho as (-> & O1 & O2). assert (Q : within (d_handle (snd (dpIncl PH d x [ver])))).
    { unfold dpIncl. pose proof (dpTs_within d x Hd) as Q. destruct (dpTs PH d x) as [[t|e0|e0|] d1]; cbn in *; try exact Q.
      pose proof (qIncl_within (d_handle d1) x Q) as Q'. destruct (qIncl hs db (d_handle d1) x [ver]) as [r h]. now apply dpRoot_within. }
    cbn [dpProvider pIncl]. destruct (dpIncl PH d x [ver]) as [r d']. rewrite final_ev. destruct r; auto.
  - rewrite final_ev. auto.
  - rewrite final_ev. apply IHp; auto.
Qed.
End Asked.

(** ** The exchange *)

Section Talk.
Variable f : bytes -> bytes.
Variable hs : N.
Variable W : world.
Hypothesis HF : faithful f hs W.
Hypothesis Hf : forall x, List.length (f x) = N.to_nat hs.
Hypothesis Hsmall : (N.to_nat hs <= 32)%nat.
Hypothesis Hpos : 0 < hs.

Local Notation L := (observed W).
Local Notation n := (lenN (w_entries W)).
Local Notation ts x := (le_ts (entryAt W x)).
Local Notation root x := (le_root (entryAt W x)).
Local Notation g x := (h_g (observed W) x).
Local Notation key := (w_key W).
Local Notation com := (w_com W).
Local Notation nhs := (N.to_nat hs).
Local Notation PH := (producedHandle hs (w_entriesDb W)).
Local Notation RH := (receivedHandle (full f) hs).

Lemma talk {A} (p : prog A) a s' evs ret front leaves r :
  run (honest L) p 0 = (a, s', evs) -> smooth L tracker0 evs -> trueEntries W ret ->
  frontier n = Ok front -> (forall x, In x front -> In x (map fst ret) \/ exists e, In e evs /\ touches x e) ->
  Forall2 (fun e h => logEntryHash (full f) e = Ok h) (w_entries W) leaves -> Mth (full f) leaves r ->
  exists dts dps tr' M R em lv,
    let dP vm := mkP W vm tr' dts dps [] [] ret M R in
    (* the server *)
    (forall vm, run (dpProvider PH) p (mkP W vm tracker0 [] [] [] [] ret (stepsTs W ret []) (stepsRoot W ret [])) = (a, dP vm, evs)) /\
    (forall vm nP m incl, Forall (fun q => Forall (hasKey W vm) (snd q)) dps -> getBatch (full f) hs (w_logDb W) lv n nP m = Ok incl ->
       exists ps q', dpOutput (full f) hs (w_entriesDb W) (w_logDb W) (w_prefixDb W) (dP vm) n nP m =
           Ok ({| cp_ts := dts; cp_proofs := ps; cp_roots := em; cp_incl := incl |}, q') /\
         Forall2 (proves f hs W) dps ps /\
         (forall q v, In q dps -> In v (snd q) -> (Z.of_N v <= g (fst q))%Z -> mget (q_versions q') v = Some (key v, Some (com v))) /\
         (forall v, hasKey W vm v -> hasKey W (q_versions q') v)) /\
    (* the client *)
    (forall nP m, match m with Some (k, old) => 1 <= k <= n /\ FullValues (full f) leaves k old | None => True end -> optSize n nP ->
       exists incl, getBatch (full f) hs (w_logDb W) lv n nP (option_map fst m) = Ok incl /\
       forall ps vm, Forall2 (proves f hs W) dps ps -> Forall (fun q => Forall (knows hs W vm (fst q)) (snd q)) dps ->
       let old := match m with Some (_, old) => old | None => [] end in
       exists dC pr, run (dpProvider RH) p (mkR vm tracker0 dts ps em incl old ret (stepsTs W ret []) (stepsRoot W ret [])) = (a, dC, evs) /\
         dpFinish (full f) hs dC n nP (option_map fst m) = Ok pr /\
         logRoot (full f) hs n (pr_subtrees pr) = Ok r /\ FullValues (full f) leaves n (pr_subtrees pr) /\
         (match nP with Some k => FullValues (full f) leaves k (pr_additional pr) | None => pr_additional pr = [] end) /\
         pr_entries pr = map (fun x => (x, entryAt W x)) front).
Proof.
  intros ER Sm TE EF HC FL HM.
  destruct (steps_inv W ret TE) as (TM0 & TR0 & Kn).
  destruct (simulate f hs W HF Hsmall Hpos p 0 tracker0 a s' evs (stepsTs W ret []) (stepsRoot W ret []) ER Sm TM0 TR0)
    as (M & R & dts & dps & tr' & TM & TR & GM & GR & HE & _ & FQ & SP & SR).
  set (lv := leavesOf ret M). set (em := map (fun x => root x) (emptyOf ret M R)). set (R' := fillRoots R (emptyOf ret M R) em).
  assert (Hlv : forall x, In x lv -> x < n /\ mget M x = Some (ts x) /\ mget R' x = Some (root x)).
  { intros x I. assert (I' := I). apply leaves_in in I'. destruct I' as [I' _]. apply keys_mget in I'. destruct I' as [t E]. destruct TM as [ND TM].
    destruct (TM _ _ E) as [Hx ->]. split; [exact Hx|]. split; [exact E|]. apply fill_all; auto. now split. }
  assert (Hfr : forall x, In x front -> mget M x = Some (ts x) /\ mget R' x = Some (root x)).
  { intros x I. assert (EM : mget M x = Some (ts x)).
    { destruct (HC x I) as [I'|(e & It & Te)]; [apply GM; now apply Kn|eapply HE; eauto]. }
    split; [exact EM|]. destruct (mget ret x) eqn:Er.
    - apply (fill_grows W ret M R TM). apply GR. apply Kn. apply mget_In in Er. apply in_map_iff. exists (x, l). auto.
    - apply Hlv. apply leaves_in. split; [|exact Er]. apply mget_In in EM. apply in_map_iff. exists (x, ts x). auto. }
  assert (Len : lenN leaves = n) by (unfold lenN; f_equal; clear -FL; induction FL; cbn; auto).
  assert (Hh : forall x, x < n -> exists h, logEntryHash (full f) (entryAt W x) = Ok h /\ nth_error leaves (N.to_nat x) = Some h).
  { intros x Hx. pose proof (entry_nth hs W Hsmall Hpos x Hx) as En. clear -FL En. revert En. generalize (entryAt W x). generalize (N.to_nat x).
    induction FL as [|e h es hs' E F IH]; intros [|k] e0; cbn [nth_error]; try discriminate; [intros [= ->]; eauto|apply IH]. }
  destruct (Forall2_ex (fun x h => logEntryHash (full f) (entryAt W x) = Ok h /\ nth_error leaves (N.to_nat x) = Some h) lv) as (values & FV).
  { intros x I. apply Hh. now apply Hlv. }
  assert (HW := HF). destruct HW as (HO & H63 & _ & _ & _ & (leaves' & fsl & FL' & EA) & _).
  assert (leaves' = leaves).
  { clear -FL FL'. revert leaves' FL'. induction FL as [|e h es hs' E F IH]; intros ? FL'; inversion FL'; subst; auto. f_equal; [congruence|auto]. }
  subst leaves'. rewrite Len in EA.
  assert (HS : Forall (fun e : bytes => lenN e = hs) leaves).
  { clear -FL Hf. induction FL as [|e h es hs' E F IH]; constructor; auto. unfold logEntryHash in E. destruct (logEntryMarshal e); try discriminate. cbn in E.
    injection E as <-. unfold lenN. rewrite Hf. lia. }
  destruct HO as (Hn & _). cbn [observed h_n] in Hn.
  exists dts, dps, tr', M, R, em, lv. cbn zeta. split; [|split].
  - intros vm. pose proof (SP vm [] [] [] [] ret eq_refl) as SP'. cbn [app] in SP'. exact SP'.
  - intros vm nP m inc FK EG. destruct (output_ok f hs W HF Hf Hsmall Hpos vm tr' dts dps em lv nP m inc FQ FK EG) as (ps & vm2 & FP & EO & NC & NK).
    eexists ps, {| q_versions := vm2 |}. cbn [q_versions]. split; [|split; [exact FP|split; [exact NC|exact NK]]].
    unfold dpOutput. rewrite (P_leaves f hs W HF Hsmall Hpos) by auto. cbn [mkP d_handle]. fold em. fold lv. exact EO.
  - intros nP m Hm OP.
    destruct (c08_verified f hs ltac:(intro x; unfold lenN; rewrite Hf; lia) Hpos leaves lv values n nP m r)
      as (fs1 & st1 & inc & fs' & ad & E1 & E2 & E3 & E4 & E5 & E6).
    + lia.
    + exact HS.
    + lia.
    + apply leaves_nodup. apply TM.
    + clear -FV Hlv. assert (G : forall x, In x lv -> x < n) by (intros; now apply Hlv). clear Hlv. induction FV as [|x h xs vs [_ A] F IH]; constructor.
      * split; [apply G; now left|exact A].
      * apply IH. intros; apply G; now right.
    + exact OP.
    + exact Hm.
    + rewrite firstn_all2; [exact HM|]. unfold lenN in *. lia.
    + rewrite Len in E1. rewrite EA in E1. injection E1 as <- <-. exists inc. split; [exact E2|]. intros ps vm FP KD.
      set (old := match m with Some (_, old) => old | None => [] end). cbn zeta.
      pose proof (SR vm [] ps em inc old ret FP KD) as SR'. rewrite app_nil_r in SR'.
      eexists _, {| pr_subtrees := fs'; pr_additional := ad; pr_entries := map (fun x => (x, entryAt W x)) front |}.
      split; [exact SR'|]. split; [|split; [exact E4|split; [exact E5|split; [exact E6|reflexivity]]]].
      unfold dpFinish. unfold em at 1. rewrite R_leaves. fold em. fold R'. fold lv.
      assert (EM2 : mapM (fun x => let* t := getOr "unreachable" (mget M x) in let* rt := getOr "unreachable" (mget R' x) in logEntryHash (full f) {| le_ts := t; le_root := rt |}) lv = Ok values).
      { apply mapM_Forall2. clear -FV Hlv. assert (G : forall x, In x lv -> mget M x = Some (ts x) /\ mget R' x = Some (root x)) by (intros x I; apply Hlv in I; tauto). clear Hlv.
        induction FV as [|x h xs vs [A _] F IH]; constructor; [|apply IH; intros; apply G; now right].
        destruct (G x) as [-> ->]; [now left|]. cbn [getOr bind]. rewrite <- A. now destruct (entryAt W x). }
      cbn [mkR d_ts d_roots d_handle d_subtrees]. rewrite EM2. cbn [bind rFinish r_ts r_proofs r_roots r_incl].
      replace (option_map (fun k => (k, old)) (option_map fst m)) with m by (subst old; destruct m as [[? ?]|]; reflexivity).
      rewrite E3. cbn [bind]. rewrite EF. cbn [bind].
      rewrite (mapM_total _ (fun x => (x, entryAt W x))); [reflexivity|].
      intros x I. destruct (Hfr x I) as [-> ->]. cbn [getOr bind]. now destruct (entryAt W x).
Qed.
End Talk.
