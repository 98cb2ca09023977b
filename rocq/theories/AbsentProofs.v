(** A search for a version that does not exist: from the server's database to the client's verdict. *)
From Coq Require Import Sorted Permutation.
From Verif Require Import Base BaseProofs LogMathSpec LogTreeModel LogTreeSpec LogMathProofs2 LogVerifyProofs2 LogTreeProofs LogTreeProofs3 LogChunkModel LogChunkProofs7 PrefixModel PrefixSpec TransMathModel TransMathProofs2 LaddersModel LaddersProofs
  CodecModel CodecSpec CodecProofs CodecProofs2 AlgModel AlgSpec AlgProofs AlgProofs4 AlgProofs6 HandleModel HandleSpec HandleProofs HandleProofs2 HandleProofs3 HandleProofs4
  HandleProofs5 HandleProofs6 HandleProofs7 HandleProofs8
  StoreModel CommitModel MutateModel MutateSpec ServerModel ClientModel ClientSpec ClientProofs2 MutateProofs2 MutateProofs5 SearchProofs SearchProofs2.
Open Scope N_scope.
Local Open Scope list_scope.

Lemma filter_short {A} (g : A -> bool) l : (List.length (filter g l) <= List.length l)%nat.
Proof. induction l as [|a l IH]; cbn; [lia|]. destruct (g a); cbn; lia. Qed.

(** ** A program that returns its error *)

Fixpoint caught {A} (p : prog A) : prog (res A) :=
  match p with
  | Ret a => Ret (Ok a)
  | Err m => Ret (Fail m)
  | Crash m => Crash m
  | Diverge => Diverge
  | GetTs x k e => GetTs x (fun t => caught (k t)) (fun m => caught (e m))
  | GetLadder x v o k e => GetLadder x v o (fun t => caught (k t)) (fun m => caught (e m))
  | GetMonitoring x v k e => GetMonitoring x v (caught k) (fun m => caught (e m))
  | GetIncl x v k e => GetIncl x v (caught k) (fun m => caught (e m))
  | StopCond x v k => StopCond x v (fun b => caught (k b))
  | TrackLadder x o g l k => TrackLadder x o g l (caught k)
  end.

Definition catch {A} (r : res A) : res (res A) :=
  match r with Ok a => Ok (Ok a) | Fail m => Ok (Fail m) | Panic m => Panic m | Fuel => Fuel end.

Lemma catch_ok {A} (r x : res A) : catch r = Ok x -> r = x.
Proof. destruct r; cbn; congruence. Qed.

Lemma run_caught {A S} (P : provider S) (p : prog A) : forall s, run P (caught p) s = let '(r, s', evs) := run P p s in (catch r, s', evs).
Proof.
  induction p; intro s; cbn [caught run]; try reflexivity.
  - destruct (pTs P s x) as [[a|m|m|] s']; cbn; try reflexivity; rewrite H || rewrite H0; destruct (run P _ s') as [[? ?] ?]; reflexivity.
  - destruct (pLadder P s x ver omit) as [[a|m|m|] s']; cbn; try reflexivity; rewrite H || rewrite H0; destruct (run P _ s') as [[? ?] ?]; reflexivity.
  - destruct (pMon P s x ver) as [[a|m|m|] s']; cbn; try reflexivity; rewrite IHp || rewrite H; destruct (run P _ s') as [[? ?] ?]; reflexivity.
  - destruct (pIncl P s x vers) as [[a|m|m|] s']; cbn; try reflexivity; rewrite IHp || rewrite H; destruct (run P _ s') as [[? ?] ?]; reflexivity.
  - rewrite H. destruct (run P _ s) as [[? ?] ?]; reflexivity.
  - rewrite IHp. destruct (run P _ _) as [[? ?] ?]; reflexivity.
Qed.

Lemma caught_run {A S} (P : provider S) (p : prog A) s r s' evs : run P (caught p) s = (Ok r, s', evs) -> run P p s = (r, s', evs).
Proof. rewrite run_caught. destruct (run P p s) as [[r0 s0] e0]. intros [= E <- <-]. apply catch_ok in E. now rewrite E. Qed.

Lemma only_caught {A} ver (p : prog A) : only ver p -> only ver (caught p).
Proof. induction p; cbn [only caught]; intuition. Qed.

(** ** The exchange, without the proof of the log entries *)

Section Talk.
Variable f : bytes -> bytes.
Variable hs : N.
Variable W : world.
Hypothesis HF : faithful f hs W.
Hypothesis Hf : forall x, List.length (f x) = N.to_nat hs.
Hypothesis Hsmall : (N.to_nat hs <= 32)%nat.
Hypothesis Hpos : 0 < hs.

Local Notation L := (observed W).
Local Notation n := (lenN (w_entries W)).
Local Notation ts x := (le_ts (entryAt W x)).
Local Notation root x := (le_root (entryAt W x)).
Local Notation g x := (h_g (observed W) x).
Local Notation key := (w_key W).
Local Notation com := (w_com W).
Local Notation nhs := (N.to_nat hs).
Local Notation PH := (producedHandle hs (w_entriesDb W)).
Local Notation RH := (receivedHandle (full f) hs).

Lemma talk_plain {A} (p : prog A) a s' evs ret leaves r :
  run (honest L) p 0 = (a, s', evs) -> smooth L tracker0 evs -> trueEntries W ret ->
  Forall2 (fun e h => logEntryHash (full f) e = Ok h) (w_entries W) leaves -> Mth (full f) leaves r ->
  exists dts dps tr' M R em lv,
    let dP vm := mkP W vm tr' dts dps [] [] ret M R in
    (forall vm, run (dpProvider PH) p (mkP W vm tracker0 [] [] [] [] ret (stepsTs W ret []) (stepsRoot W ret [])) = (a, dP vm, evs)) /\
    (forall vm nP m incl, Forall (fun q => Forall (hasKey W vm) (snd q)) dps -> getBatch (full f) hs (w_logDb W) lv n nP m = Ok incl ->
       exists ps q', dpOutput (full f) hs (w_entriesDb W) (w_logDb W) (w_prefixDb W) (dP vm) n nP m =
           Ok ({| cp_ts := dts; cp_proofs := ps; cp_roots := em; cp_incl := incl |}, q') /\
         Forall2 (proves f hs W) dps ps /\
         (forall q v, In q dps -> In v (snd q) -> (Z.of_N v <= g (fst q))%Z -> mget (q_versions q') v = Some (key v, Some (com v))) /\
         (forall v, hasKey W vm v -> hasKey W (q_versions q') v)) /\
    (forall nP m, match m with Some (k, old) => 1 <= k <= n /\ FullValues (full f) leaves k old | None => True end -> optSize n nP ->
       exists incl, getBatch (full f) hs (w_logDb W) lv n nP (option_map fst m) = Ok incl) /\
    (forall ps vm incl old, Forall2 (proves f hs W) dps ps -> Forall (fun q => Forall (knows hs W vm (fst q)) (snd q)) dps ->
       exists dC, run (dpProvider RH) p (mkR vm tracker0 dts ps em incl old ret (stepsTs W ret []) (stepsRoot W ret [])) = (a, dC, evs)).
Proof.
  intros ER Sm TE FL HM.
  destruct (steps_inv W ret TE) as (TM0 & TR0 & Kn).
  destruct (simulate f hs W HF Hsmall Hpos p 0 tracker0 a s' evs (stepsTs W ret []) (stepsRoot W ret []) ER Sm TM0 TR0)
    as (M & R & dts & dps & tr' & TM & TR & GM & GR & HE & _ & FQ & SP & SR).
  set (lv := leavesOf ret M). set (em := map (fun x => root x) (emptyOf ret M R)). set (R' := fillRoots R (emptyOf ret M R) em).
  assert (Hlv : forall x, In x lv -> x < n /\ mget M x = Some (ts x) /\ mget R' x = Some (root x)).
  { intros x I. assert (I' := I). apply leaves_in in I'. destruct I' as [I' _]. apply keys_mget in I'. destruct I' as [t E]. destruct TM as [ND TM].
    destruct (TM _ _ E) as [Hx ->]. split; [exact Hx|]. split; [exact E|]. apply fill_all; auto. now split. }
  assert (Len : lenN leaves = n) by (unfold lenN; f_equal; clear -FL; induction FL; cbn; auto).
  assert (Hh : forall x, x < n -> exists h, logEntryHash (full f) (entryAt W x) = Ok h /\ nth_error leaves (N.to_nat x) = Some h).
  { intros x Hx. pose proof (entry_nth hs W Hsmall Hpos x Hx) as En. clear -FL En. revert En. generalize (entryAt W x). generalize (N.to_nat x).
    induction FL as [|e h es hs' E F IH]; intros [|k] e0; cbn [nth_error]; try discriminate; [intros [= ->]; eauto|apply IH]. }
  destruct (Forall2_ex (fun x h => logEntryHash (full f) (entryAt W x) = Ok h /\ nth_error leaves (N.to_nat x) = Some h) lv) as (values & FV).
  { intros x I. apply Hh. now apply Hlv. }
  assert (HW := HF). destruct HW as (HO & H63 & _ & _ & _ & (leaves' & fsl & FL' & EA) & _).
  assert (leaves' = leaves).
  { clear -FL FL'. revert leaves' FL'. induction FL as [|e h es hs' E F IH]; intros ? FL'; inversion FL'; subst; auto. f_equal; [congruence|auto]. }
  subst leaves'. rewrite Len in EA.
  assert (HS : Forall (fun e : bytes => lenN e = hs) leaves).
  { clear -FL Hf. induction FL as [|e h es hs' E F IH]; constructor; auto. unfold logEntryHash in E. destruct (logEntryMarshal e); try discriminate. cbn in E.
    injection E as <-. unfold lenN. rewrite Hf. lia. }
  destruct HO as (Hn & _). cbn [observed h_n] in Hn.
  exists dts, dps, tr', M, R, em, lv. cbn zeta. split; [|split; [|split]].
  - intros vm. pose proof (SP vm [] [] [] [] ret eq_refl) as SP'. cbn [app] in SP'. exact SP'.
  - intros vm nP m inc FK EG. destruct (output_ok f hs W HF Hf Hsmall Hpos vm tr' dts dps em lv nP m inc FQ FK EG) as (ps & vm2 & FP & EO & NC & NK).
    eexists ps, {| q_versions := vm2 |}. cbn [q_versions]. split; [|split; [exact FP|split; [exact NC|exact NK]]].
    unfold dpOutput. rewrite (P_leaves f hs W HF Hsmall Hpos) by auto. cbn [mkP d_handle]. fold em. fold lv. exact EO.
  - intros nP m Hm OP.
    destruct (c08_verified f hs ltac:(intro x; unfold lenN; rewrite Hf; lia) Hpos leaves lv values n nP m r)
      as (fs1 & st1 & inc & fs' & ad & E1 & E2 & E3 & E4 & E5 & E6).
    + lia.
    + exact HS.
    + lia.
    + apply leaves_nodup. apply TM.
    + clear -FV Hlv. assert (G : forall x, In x lv -> x < n) by (intros; now apply Hlv). clear Hlv. induction FV as [|x h xs vs [_ A] F IH]; constructor.
      * split; [apply G; now left|exact A].
      * apply IH. intros; apply G; now right.
    + exact OP.
    + exact Hm.
    + rewrite firstn_all2; [exact HM|]. unfold lenN in *. lia.
    + rewrite Len in E1. rewrite EA in E1. injection E1 as <- <-. exists inc. exact E2.
  - intros ps vm inc old FP KD. pose proof (SR vm [] ps em inc old ret FP KD) as SR'. rewrite app_nil_r in SR'. eexists. exact SR'.
Qed.
End Talk.

(** ** The server's answer and the client's verdict *)

Section Served.
Variable f : bytes -> bytes.
Variable hs : N.
Hypothesis Hf : forall x, lenN (f x) = hs.
Hypothesis Hhs : 0 < hs <= 32.
Variable c : pubConfig.
Variable vrf : bytes -> bytes * bytes.
Variable Ls : list bytes.
Hypothesis HV : vrfGood hs vrf Ls.
Variable valid : bytes -> bytes -> Prop.
Variable vrfVerify : bytes -> bytes -> option bytes.
Hypothesis Hvrf : forall i, vrfVerify i (snd (vrf i)) = Some (fst (vrf i)).
Variable leafVerify : bytes -> bytes -> bool.
Variable now : N.
Variable t : tree.
Variable E : list epoch.
Hypothesis HT : treeOf f hs vrf Ls c valid t E.
Hypothesis HE : E <> [].
Variable l : bytes.
Hypothesis Hl : In l Ls.
Local Notation W := (worldOf f hs vrf (durable (t_tx t)) E l).
Hypothesis HF : faithful f hs W.
Local Notation n := (lenN (entriesOf E)).
Local Notation nhs := (N.to_nat hs).

Lemma absent state v leaves root :
  genuine f E state -> nth_error (current E l) (N.to_nat v) = None -> v < 2 ^ 31 - 1 -> pc_mode c <> ThirdPartyManagement ->
  (forall x, x < n -> isExpired (pc_maxLife c) (h_ts (observed W) x) (h_ts (observed W) (n - 1)) = false) ->
  h_ts (observed W) (n - 1) < 2 ^ 64 -> clockFine c now (h_ts (observed W) (n - 1)) ->
  Forall2 (fun e h => logEntryHash (full f) e = Ok h) (entriesOf E) leaves -> Mth (full f) leaves root ->
  let req := {| sq_last := getLast state; sq_label := l; sq_version := Some v |} in
  exists resp, serverSearch (full f) hs c vrf now (serverOf t) req = Ok resp /\
    checkSearch (full f) hs c now vrfVerify leafVerify state req resp = Fail ErrLabelNotFound.
Proof.
  intros G Ep Hv Hmode HEx Hts Hcl FL HM req.
  pose proof (kept_size f hs Hf Hhs vrf vrfVerify Hvrf leafVerify E l state G) as KS.
  destruct (state_entries f hs Hf Hhs c vrf Ls valid vrfVerify Hvrf leafVerify t E HT HE l HF state G) as (KP & KV & KF). specialize (KV leaves FL).
  pose proof (HfL f hs Hf Hhs vrf vrfVerify Hvrf leafVerify l) as HfL'. assert (Hsm' : (nhs <= 32)%nat) by lia. assert (Hpos : 0 < hs) by lia.
  destruct (HF) as (HL & _). assert (Hnn : 1 <= h_n (observed W) < 2 ^ 64) by exact (SearchProofs.Hn1 f hs W HF).
  change (h_n (observed W)) with n in Hnn.
  set (prg := pbind (updateView c now n (getLast state)) (fun _ => caught (fixedVersionSearch c v n))).
  (* the honest answer *)
  assert (Hg : (h_g (observed W) (n - 1) < Z.of_N v)%Z).
  { cbn [observed h_g w_index worldOf]. apply nth_error_None in Ep. unfold countLe.
    pose proof (filter_short (fun p => p <=? n - 1) (map pv_pos (current E l))) as K. rewrite map_length in K. lia. }
  assert (HR : result (run (honest (observed W)) (fixedVersionSearch c v n) 0) = Fail ErrLabelNotFound).
  { destruct (c21_fixed c (observed W) v 0 HL HEx) as [_ K]. apply K. exact Hg. }
  assert (exists s' evs, run (honest (observed W)) prg 0 = (Ok (Fail ErrLabelNotFound), s', evs) /\ smooth (observed W) tracker0 evs) as (s' & evs & ER & Sm).
  { unfold prg. rewrite run_bind. destruct (view_result f hs W HF Hsm' Hpos c now (getLast state) 0 KS Hts Hcl) as (e1 & E1).
    change (lenN (w_entries W)) with n in E1. rewrite E1. cbn [andThen]. rewrite run_caught.
    destruct (run (honest (observed W)) (fixedVersionSearch c v n) 0) as [[r2 s2] e2] eqn:E2. cbn in HR. subst r2. cbn.
    eexists _, _. split; [reflexivity|].
    destruct (pre_run (observed W) (updateView c now n (getLast state)) tracker0 _ 0 (pre_updateView (observed W) c Hnn now (getLast state) tracker0)) as (r1 & s1 & e1' & tr & E1' & S1 & Q1).
    rewrite E1 in E1'. injection E1' as <- <- <-. apply S1. rewrite Q1.
    exact (pre_smooth W _ _ (pre_fixed (observed W) HL c Hnn v Hv) 0 _ _ _ E2). }
  destruct (talk_plain f hs W HF HfL' Hsm' Hpos prg _ s' evs (retained state) leaves root ER Sm (proj1 KP) FL HM) as (dts & dps & tr' & M & R & em & lv & T1 & T2 & T3 & T4).
  cbn zeta in T1, T2. change (lenN (w_entries W)) with n in *.
  destruct (base_spec v Hv) as (base & Eb & Iv & _ & ND & Fb & l0 & Ezero).
  destruct (HV) as (HLn & HK & _). specialize (HLn l Hl).
  assert (Hkey : forall u, In u base -> u < 2 ^ 32 /\ lenN (keyOf vrf l u) = hs /\ w_key W u = keyOf vrf l u).
  { intros u I. rewrite Forall_forall in Fb. specialize (Fb u I). assert (u < 2 ^ 32) by (change (2 ^ 31) with 2147483648 in Fb; change (2 ^ 32) with 4294967296; lia).
    split; [assumption|]. split; [unfold lenN; rewrite (HK l u Hl) by assumption; lia|]. cbn [w_key worldOf]. apply N.ltb_lt in H. now rewrite H. }
  destruct (server_ladder hs vrf l HLn base (newProduced (w_index W)) ND) as (vmS & proofs & ES & FS & KS1 & _).
  { intros u I. split; [now apply Hkey|reflexivity]. }
  cbn [newProduced q_index q_tracker q_ts q_proofs q_roots] in ES.
  (* the versions asked for are in the ladder *)
  assert (Asked : forall q u, In q dps -> In u (snd q) -> In u base).
  { pose proof (run_within hs (w_entriesDb W) v base Eb ltac:(rewrite Ezero; now left) Iv _
      (only_bind v (updateView c now n (getLast state)) (fun _ => caught (fixedVersionSearch c v n)) (only_view v c now n (getLast state)) (fun _ => only_caught v _ (only_fixed v c n)))
      (mkP W vmS tracker0 [] [] [] [] (retained state) (stepsTs W (retained state) []) (stepsRoot W (retained state) []))) as Wi.
    fold prg in Wi. rewrite T1 in Wi. cbn [final fst snd mkP d_handle] in Wi. unfold within in Wi. cbn [q_proofs] in Wi. specialize (Wi (Forall_nil _)).
    rewrite Forall_forall in Wi. intros q u Iq Iu. exact (Wi q Iq u Iu). }
  assert (HasS : forall u, In u base -> hasKey W vmS u).
  { intros u I. exists None. split; [|now left]. rewrite (KS1 u I). f_equal. f_equal. symmetry. now apply Hkey. }
  destruct (head_ok f hs c vrf Ls valid t E HT HE) as (th & Eth & Sth & _).
  assert (exists mS inclS, serverHead (serverOf t) (getLast state) = Ok (headFor t E (getLast state), n, None, mS) /\
    getBatch (full f) hs (w_logDb W) lv n None mS = Ok inclS) as (mS & inclS & EH & EG).
  { destruct (T3 None (option_map (fun k => (k, kept state)) (getLast state)) KV Logic.I) as (inclC & EC).
    replace (option_map fst (option_map (fun k => (k, kept state)) (getLast state))) with (getLast state) in EC by (destruct (getLast state); reflexivity).
    unfold serverHead, headFor. cbn [serverOf sv_head sv_auditor option_map]. rewrite Eth, Sth. destruct (getLast state) as [k|].
    - destruct (N.eqb_spec k n) as [->|Hne].
      + destruct (T3 None None Logic.I Logic.I) as (inclS & EG). exists None, inclS. split; [reflexivity|exact EG].
      + destruct (N.ltb_spec n k); [lia|]. exists (Some k), inclC. auto.
    - exists None, inclC. auto. }
  destruct (T2 vmS None mS inclS) as (ps & q' & EO & FP & NC & NK).
  { apply Forall_forall. intros q Iq. apply Forall_forall. intros u Iu. apply HasS. eapply Asked; eauto. }
  { exact EG. }
  (* the server *)
  destruct HT as (HD & Hd & _). assert (Hv32 : v < 2 ^ 32) by (change (2 ^ 31) with 2147483648 in Hv; change (2 ^ 32) with 4294967296; lia).
  pose proof (ds_versions _ _ _ _ _ _ HD l v Hl Hv32) as DV. rewrite Ep in DV.
  set (value0 := {| uv_value := []; uv_sig := None |}). set (opening0 := repeat Byte.x00 (pc_openSize c)).
  assert (EGV : getVersion c (durable (t_tx t)) l v = Ok {| ov_opening := opening0; ov_value := value0 |}).
  { unfold getVersion. rewrite Hd, DV. reflexivity. }
  assert (EI : serverIndex (serverOf t) l = Ok (w_index W)).
  { unfold serverIndex. cbn [serverOf sv_db]. rewrite Hd. apply (ds_index _ _ _ _ _ _ HD l Hl). }
  set (greatest := (Z.of_nat (List.length (w_index W)) - 1)%Z).
  set (dS0 := mkP W vmS tracker0 [] [] [] [] (retained state) (stepsTs W (retained state) []) (stepsRoot W (retained state) [])) in *.
  specialize (T1 vmS). unfold prg in T1. apply split_run in T1. destruct T1 as ([] & d1 & e1 & e2 & Eu & Er). fold dS0 in Eu. apply caught_run in Er.
  set (qS := {| q_index := w_index W; q_versions := vmS; q_tracker := tracker0; q_ts := []; q_proofs := []; q_roots := [] |}) in *.
  assert (EVw : serverView hs c now (serverOf t) (getLast state) n (newDataProvider qS) = Ok d1).
  { unfold serverView.
    assert (E0 : match getLast state with None => Ok (newDataProvider qS)
              | Some k => let* es := frontierEntries hs (serverOf t) k in Ok (match addRetained (newDataProvider qS) [] es with Ok d' => d' | _ => newDataProvider qS end) end = Ok dS0).
    { destruct (addRetained_true f hs W HF Hsm' Hpos (retained state) [] qS (proj1 KP)) as (M0 & R0 & EA & -> & ->).
      destruct (getLast state) as [k|].
      - rewrite KF. cbn [bind]. rewrite EA. reflexivity.
      - f_equal. unfold dS0. rewrite KF. reflexivity. }
    rewrite E0. cbn [bind]. unfold exec, serverHandle. cbn [serverOf sv_db].
    change (fun x : N => mget (x_entries (durable (t_tx t))) x) with (w_entriesDb W). rewrite Eu. reflexivity. }
  set (steps := searchSteps (Some v) greatest q' base proofs).
  set (resp := {| sr_head := headFor t E (getLast state); sr_version := None;
                  sr_opening := opening0; sr_value := value0; sr_ladder := steps;
                  sr_search := {| cp_ts := dts; cp_proofs := ps; cp_roots := em; cp_incl := inclS |} |}).
  exists resp. split.
  { unfold serverSearch. cbn [req sq_last sq_label sq_version]. rewrite EH. cbn [bind]. rewrite EI. cbn [bind]. fold greatest. cbn [searchTarget searchLadderFor].
    rewrite (search_ladder_base v base Eb). cbn [bind].
    cbn [serverOf sv_db]. rewrite EGV. cbn [bind]. rewrite ES. cbn [bind]. fold qS. change {| sv_db := durable (t_tx t); sv_head := t_head t; sv_auditor := None |} with (serverOf t).
    rewrite EVw. cbn [bind]. unfold serverHandle. cbn [serverOf sv_db]. change (fun x : N => mget (x_entries (durable (t_tx t))) x) with (w_entriesDb W). rewrite Er.
    cbn [result final fst snd]. replace (String.eqb ErrLabelNotFound ErrLabelNotFound) with true by reflexivity. cbn [bind].
    change (x_log (durable (t_tx t))) with (w_logDb W). change (x_prefix (durable (t_tx t))) with (w_prefixDb W). rewrite EO. reflexivity. }
  (* the client *)
  assert (exists com0, labelCommitment (full f) opening0 l v value0 = Ok com0 /\ lenN com0 = hs) as (com0 & ECm & Lcom).
  { destruct (labelCommitment (full f) opening0 l v value0) as [b|e|e|] eqn:EC.
    - exists b. split; [reflexivity|]. unfold labelCommitment in EC. destruct (commitmentValue l v value0) as [cv|?|?|]; cbn [bind] in EC; try discriminate EC.
      unfold Commit, hmac, hash, full in EC. cbn [bind] in EC. injection EC as <-. apply Hf.
    - exfalso. revert EC. unfold labelCommitment, commitmentValue. unfold writeBytes at 1. replace (maxS 1 <? lenN l) with false by (symmetry; apply N.ltb_ge; exact HLn). discriminate.
    - exfalso. revert EC. unfold labelCommitment, commitmentValue. unfold writeBytes at 1. replace (maxS 1 <? lenN l) with false by (symmetry; apply N.ltb_ge; exact HLn). discriminate.
    - exfalso. revert EC. unfold labelCommitment, commitmentValue. unfold writeBytes at 1. replace (maxS 1 <? lenN l) with false by (symmetry; apply N.ltb_ge; exact HLn). discriminate. }
  set (com := fun u : N => if u =? v then Some com0 else qCommitment q' u).
  assert (HKC : forall u, List.length (w_key W u) = nhs /\ List.length (w_com W u) = nhs) by (destruct HF as (_ & _ & _ & _ & _ & _ & _ & K & _); exact K).
  assert (Hcom : forall u, In u base -> u <> v -> com u = None \/ com u = Some (w_com W u)).
  { intros u I Hu. unfold com. destruct (N.eqb_spec u v) as [->|]; [contradiction|]. unfold qCommitment. destruct (NK u (HasS u I)) as (c2 & -> & Hc2). exact Hc2. }
  assert (Hlen : forall u, In u base -> match com u with None => True | Some b => lenN b = hs end).
  { intros u I. destruct (N.eq_dec u v) as [->|Hu]; [unfold com; now rewrite N.eqb_refl|]. destruct (Hcom u I Hu) as [-> | ->]; [exact Logic.I|]. destruct (HKC u) as [_ K]. unfold lenN. lia. }
  assert (exists v0, newCVerifier state (getLast state) (headFor t E (getLast state)) (sr_search resp) = Ok v0 /\ v_n v0 = n /\ v_m v0 = getLast state /\
    v_d v0 = mkR [] tracker0 dts ps em inclS (kept state) (retained state) (stepsTs W (retained state) []) (stepsRoot W (retained state) [])) as (v0 & EN & Ev3 & Ev5 & Ev6).
  { unfold newCVerifier, newReceived. cbn [sr_search resp cp_ts cp_proofs cp_roots cp_incl].
    set (rr := {| r_ts := dts; r_proofs := ps; r_roots := em; r_incl := inclS; r_versions := []; r_tracker := tracker0 |}).
    assert (E0 : match state with None => Ok (newDataProvider rr) | Some s => addRetained (newDataProvider rr) (cs_subtrees s) (cs_entries s) end =
                 Ok (mkR [] tracker0 dts ps em inclS (kept state) (retained state) (stepsTs W (retained state) []) (stepsRoot W (retained state) []))).
    { destruct state as [st|]; [|reflexivity]. destruct (addRetained_true f hs W HF Hsm' Hpos (retained (Some st)) (kept (Some st)) rr (proj1 KP)) as (M0 & R0 & EA & -> & ->). exact EA. }
    rewrite E0. cbn [bind].
    assert (E1 : match fth_head (headFor t E (getLast state)), getLast state with Some th, _ => Ok (th_size th) | None, Some k => Ok k | None, None => Fail "no tree head was provided when required" end = Ok n).
    { unfold headFor. destruct (getLast state) as [k|].
      - destruct (N.eqb_spec k n) as [->|]; cbn [sameHead fth_head]; [reflexivity|]. rewrite Eth, Sth. reflexivity.
      - cbn [fth_head]. rewrite Eth, Sth. reflexivity. }
    rewrite E1. cbn [bind]. eexists. split; [reflexivity|]. cbn. auto. }
  destruct (client_ladder hs vrf vrfVerify l Hvrf [(v, com0)] com base steps v0 ND) as (vmC & ELd & KC1 & _).
  { intros u _. unfold vVersions. rewrite Ev6. reflexivity. }
  { unfold steps, searchSteps. apply (Forall2_steps (stepFor vrf l)); [exact FS|]. intros u pf I St. cbn [ls_proof ls_commitment]. split; [exact St|]. split; [now apply Hkey|]. split; [now apply Hlen|].
    unfold com. cbn [mget]. destruct (N.eqb_spec u v) as [->|Hne]; cbn [negb]; [auto|reflexivity]. }
  assert (KD : Forall (fun q => Forall (knows hs W vmC (fst q)) (snd q)) dps).
  { apply Forall_forall. intros q Iq. apply Forall_forall. intros u Iu. assert (Ib := Asked q u Iq Iu). exists (com u). split.
    - rewrite (KC1 u Ib). f_equal. f_equal. symmetry. now apply Hkey.
    - destruct (Z.leb_spec (Z.of_N u) (h_g (observed W) (fst q))) as [Hu|Hu].
      + unfold com. destruct (N.eqb_spec u v) as [->|]; [|unfold qCommitment; rewrite (NC q u Iq Iu Hu); reflexivity]. exfalso.
        cbn [observed h_g w_index worldOf] in Hu. apply nth_error_None in Ep. unfold countLe in Hu.
        pose proof (filter_short (fun p => p <=? fst q) (map pv_pos (current E l))) as K. rewrite map_length in K. lia.
      + pose proof (Hlen u Ib) as K. destruct (com u); [unfold lenN in K; lia|exact Logic.I]. }
  destruct (T4 ps vmC inclS (kept state) FP KD) as (dC & ERc).
  unfold prg in ERc. apply split_run in ERc. destruct ERc as ([] & dC1 & f1 & f2 & Eu2 & Er2). apply caught_run in Er2.
  unfold checkSearch. cbn [req sq_last sq_label sq_version]. change (sr_head resp) with (headFor t E (getLast state)). rewrite EN. cbn [bind].
  unfold searchedVersion. cbn [req sq_version bind]. cbn [sr_value sr_opening sr_ladder resp].
  assert (EUV : verifyUpdateValue c leafVerify l v value0 = Ok tt).
  { unfold verifyUpdateValue. apply N.eqb_neq in Hmode. rewrite Hmode. reflexivity. }
  rewrite EUV. cbn [bind]. rewrite (search_ladder_base v base Eb). cbn [bind]. rewrite ECm. cbn [bind]. unfold processLadder.
  assert (Len : List.length steps = List.length base).
  { unfold steps, searchSteps. rewrite map_length, combine_length. pose proof (LogTreeProofs.Forall2_len _ _ _ FS) as Q. unfold lenN in Q. lia. }
  rewrite Len, Nat.eqb_refl. cbn [negb]. rewrite ELd. cbn [bind]. unfold execV at 1. change (v_n (withVersions v0 vmC)) with (v_n v0). change (v_m (withVersions v0 vmC)) with (v_m v0). rewrite Ev3, Ev5.
  assert (EDC : v_d (withVersions v0 vmC) = mkR vmC tracker0 dts ps em inclS (kept state) (retained state) (stepsTs W (retained state) []) (stepsRoot W (retained state) [])).
  { unfold withVersions. cbn [setProvider v_d]. rewrite Ev6. reflexivity. }
  rewrite EDC, Eu2. cbn [result final fst snd bind]. unfold execV. cbn [setProvider v_n v_d]. change (v_n (withVersions v0 vmC)) with (v_n v0). rewrite Ev3.
  rewrite Er2. reflexivity.
Qed.
End Served.
