(** A search from the server's database to the client's verdict: the whole exchange. *)
From Coq Require Import Sorted Permutation.
From Verif Require Import Base BaseProofs LogMathSpec LogTreeModel LogTreeSpec LogMathProofs2 LogVerifyProofs2 LogTreeProofs LogTreeProofs3 LogChunkModel PrefixModel PrefixSpec TransMathModel TransMathProofs2 LaddersModel LaddersProofs
  CodecModel CodecSpec CodecProofs CodecProofs2 AlgModel AlgSpec AlgProofs AlgProofs4 AlgProofs6 HandleModel HandleSpec HandleProofs HandleProofs2 HandleProofs3 HandleProofs4
  HandleProofs5 HandleProofs6 HandleProofs7 HandleProofs8
  StoreModel CommitModel MutateModel MutateSpec ServerModel ClientModel ClientSpec ClientProofs2 MutateProofs2 MutateProofs5 SearchProofs.
Open Scope N_scope.
Local Open Scope list_scope.

Lemma FullValues_extend H L m fs : 1 <= m -> FullValues H (firstn (N.to_nat m) L) m fs -> FullValues H L m fs.
Proof.
  intros Hm (parts & P & F). exists parts. split; auto. pose proof (Parts_tiles _ _ _ Hm P) as T.
  eapply Forall2_impl_In; [|exact F]. intros [b l] v Hz NV. cbn [fst snd] in *. unfold NodeVal in *.
  destruct (tiles_in _ _ _ _ _ T Hz) as (T1 & T2 & T3). rewrite slice_firstn in NV; auto.
Qed.

Lemma Forall2_firstn {A B} (R : A -> B -> Prop) k : forall l l', Forall2 R l l' -> Forall2 R (firstn k l) (firstn k l').
Proof. induction k; intros l l' F; [constructor|]. destruct F; [constructor|]. cbn. constructor; auto. Qed.

Lemma hashes_unique f es l l' : Forall2 (fun e h => logEntryHash (full f) e = Ok h) es l -> Forall2 (fun e h => logEntryHash (full f) e = Ok h) es l' -> l = l'.
Proof.
  intro F. revert l'. induction F as [|e h es hs E F IH]; intros l' F'; inversion F'; subst; [reflexivity|]. f_equal; [congruence|auto].
Qed.

Lemma nth_error_firstn_lt {A} (l : list A) : forall k i, (i < k)%nat -> nth_error (firstn k l) i = nth_error l i.
Proof. induction l as [|a l IH]; intros [|k] [|i] Hi; cbn; auto; try lia. apply IH. lia. Qed.

Section Served.
Variable f : bytes -> bytes.
Variable hs : N.
Hypothesis Hf : forall x, lenN (f x) = hs.
Hypothesis Hhs : 0 < hs <= 32.
Variable c : pubConfig.
Variable vrf : bytes -> bytes * bytes.
Variable Ls : list bytes.
Hypothesis HV : vrfGood hs vrf Ls.
Variable valid : bytes -> bytes -> Prop.
Variable vrfVerify : bytes -> bytes -> option bytes.
Hypothesis Hvrf : forall i, vrfVerify i (snd (vrf i)) = Some (fst (vrf i)).
Variable leafVerify : bytes -> bytes -> bool.
Variable now : N.
Variable t : tree.
Variable E : list epoch.
Hypothesis HT : treeOf f hs vrf Ls c valid t E.
Hypothesis HE : E <> [].
Variable l : bytes.
Hypothesis Hl : In l Ls.
Local Notation W := (worldOf f hs vrf (durable (t_tx t)) E l).
Hypothesis HF : faithful f hs W.
Local Notation n := (lenN (entriesOf E)).
Local Notation nhs := (N.to_nat hs).

Lemma HfL x : List.length (f x) = nhs.
Proof. specialize (Hf x). unfold lenN in Hf. lia. Qed.
Lemma Hsm : (nhs <= 32)%nat.
Proof. lia. Qed.
Lemma len_E : n = lenN E.
Proof. unfold lenN, entriesOf. now rewrite map_length. Qed.
Lemma n_bounds : 1 <= n < 2 ^ 63.
Proof. destruct HT as (HD & _). rewrite len_E. split; [destruct E; [contradiction|unfold lenN; cbn; lia]|apply (ds_size _ _ _ _ _ _ HD)]. Qed.

(** ** What the client has kept *)

(** The client has no state, or one for an earlier (or the same) log. *)
Definition genuine (state : option clientState) : Prop :=
  match state with
  | None => True
  | Some st => exists k h, 1 <= k <= n /\ stateFor f h (firstn (N.to_nat k) (entriesOf E)) st
  end.
Definition retained (state : option clientState) : list (N * logEntry) := match state with None => [] | Some st => cs_entries st end.
Definition kept (state : option clientState) : list bytes := match state with None => [] | Some st => cs_subtrees st end.

Lemma kept_size state : genuine state -> match getLast state with Some k => 1 <= k <= n | None => True end.
Proof.
  destruct state as [st|]; [|exact (fun _ => Logic.I)]. intros (k & h & Hk & (Sz & Eh & _)). cbn. rewrite Eh, Sz. unfold lenN in *. rewrite firstn_length. lia.
Qed.

Lemma entry_in x : x < n -> exists raw, logEntryMarshal (entryAt W x) = Ok raw /\ mget (x_entries (durable (t_tx t))) x = Some raw /\
  newLogEntry nhs raw = Ok (entryAt W x, []) /\ le_ts (entryAt W x) < 2 ^ 64.
Proof.
  intro Hx. destruct HT as (HD & Hd & _). unfold entryAt. cbn [w_entries worldOf].
  destruct (nth_error (entriesOf E) (N.to_nat x)) as [e|] eqn:Ee; [|apply nth_error_None in Ee; unfold lenN in Hx; lia].
  destruct (ds_entries _ _ _ _ _ _ HD x e Ee) as (Lr & Lt & raw & Mr & Gr). exists raw. rewrite Hd. split; [exact Mr|]. split; [exact Gr|].
  split; [|exact Lt]. rewrite <- (app_nil_r raw). apply (proj1 (codec_logEntry nhs)); [split; [exact Lt|exact Lr]|exact Mr].
Qed.

Lemma state_entries state : genuine state ->
  HandleSpec.keeps W (getLast state) (retained state) /\
  (forall leaves, Forall2 (fun e h => logEntryHash (full f) e = Ok h) (entriesOf E) leaves ->
     match option_map (fun k => (k, kept state)) (getLast state) with Some (k, old) => 1 <= k <= n /\ FullValues (full f) leaves k old | None => True end) /\
  match getLast state with Some k => frontierEntries hs (serverOf t) k = Ok (retained state) | None => retained state = [] end.
Proof.
  intro G. pose proof (kept_size state G) as KS. destruct state as [st|]; [|cbn; split; [split; [split; [constructor|intros ? ? []]|exact Logic.I]|split; [exact (fun _ _ => Logic.I)|reflexivity]]].
  destruct G as (k & h & Hk & (Sz & Eh & (leaves' & FL' & FV) & front & EF & Ec)). cbn [getLast option_map retained kept] in *. rewrite Eh, Sz in *.
  set (es := firstn (N.to_nat k) (entriesOf E)) in *.
  assert (Le : lenN es = k) by (unfold es, lenN in *; rewrite firstn_length; lia). rewrite Le in *.
  pose proof n_bounds as NB. destruct (TransMathProofs.frontier_spec k) as (fr & EF' & _ & Mem & Sor & _); [change two64 with (2 ^ 64); lia|].
  rewrite EF in EF'. injection EF' as <-.
  assert (Hfr : forall x, In x front -> x < k) by (intros x I; apply Mem in I; tauto).
  assert (Ec' : cs_entries st = map (fun x => (x, entryAt W x)) front).
  { rewrite Ec. apply map_ext_in. intros x I. f_equal. unfold entryAt. cbn [w_entries worldOf]. specialize (Hfr x I).
    destruct (nth_error (entriesOf E) (N.to_nat x)) as [e|] eqn:Ee; [|apply nth_error_None in Ee; unfold lenN in Hk; lia].
    apply nth_error_nth. unfold es. rewrite nth_error_firstn_lt by lia. exact Ee. }
  assert (Ef : map fst (cs_entries st) = front) by (rewrite Ec', map_map; cbn; apply map_id).
  split; [split; [split|]|split].
  - rewrite Ef. clear -Sor. induction Sor as [|x xs S IH F]; constructor; auto. intro I. rewrite Forall_forall in F. apply F in I. lia.
  - intros x e I. rewrite Ec' in I. apply in_map_iff in I. destruct I as (y & [= <- <-] & I). split; [|reflexivity]. cbn [w_entries worldOf]. specialize (Hfr y I). lia.
  - cbn. intros front' x EF2 I. rewrite EF in EF2. injection EF2 as <-. now rewrite Ef.
  - intros leaves FL. split; [exact KS|]. apply FullValues_extend; [lia|]. pose proof (Forall2_firstn _ (N.to_nat k) _ _ FL) as FL2. fold es in FL2.
    rewrite (hashes_unique f es _ _ FL2 FL'). exact FV.
  - unfold frontierEntries. rewrite EF. cbn [bind serverOf sv_db]. rewrite Ec'. apply mapM_total. intros x I.
    destruct (entry_in x) as (raw & _ & -> & -> & _); [specialize (Hfr x I); lia|]. reflexivity.
Qed.

(** ** The exchange *)

Lemma head_ok : exists th, t_head t = Some th /\ th_size th = n /\ signedFor f c valid E th.
Proof.
  destruct HT as (_ & _ & HH). destruct (t_head t) as [th|]; [|destruct HH; contradiction]. destruct HH as (Sz & _ & Sg & _). exists th. rewrite len_E. auto.
Qed.

Definition sameHead : fullTreeHead := {| fth_head := None; fth_auditor := None |}.
Definition headFor (last : option N) : fullTreeHead :=
  match last with Some k => if k =? n then sameHead else {| fth_head := t_head t; fth_auditor := None |} | None => {| fth_head := t_head t; fth_auditor := None |} end.

Definition programFor (version : option N) (v : N) : prog N :=
  match version with None => greatestVersionSearch c v n | Some _ => fixedVersionSearch c v n end.

Lemma only_program version v : only v (programFor version v).
Proof. destruct version; [apply only_fixed|apply only_greatest]. Qed.

Lemma split_run {A B S} (P : provider S) (u : prog B) (p : prog A) s a s' evs : run P (pbind u (fun _ => p)) s = (Ok a, s', evs) ->
  exists b s1 e1 e2, run P u s = (Ok b, s1, e1) /\ run P p s1 = (Ok a, s', e2).
Proof.
  rewrite run_bind. destruct (run P u s) as [[[b|e|e|] s1] e1]; cbn; try discriminate. destruct (run P p s1) as [[r s2] e2] eqn:E2. intros [= -> <- _]. eauto 6.
Qed.

Lemma Forall2_steps (R : N -> bytes -> Prop) (Q : N -> ladderStep -> Prop) (h : N * bytes -> ladderStep) : forall vers proofs,
  Forall2 R vers proofs -> (forall v pf, In v vers -> R v pf -> Q v (h (v, pf))) -> Forall2 Q vers (map h (combine vers proofs)).
Proof.
  intros vers proofs F. induction F as [|v pf vers proofs Rv F IH]; intros K; cbn; constructor.
  - apply K; [now left|exact Rv].
  - apply IH. intros; apply K; auto. now right.
Qed.

Lemma served state version v p pos leaves root :
  genuine state -> nth_error (current E l) (N.to_nat v) = Some p -> v < 2 ^ 31 - 1 ->
  (version = Some v \/ version = None /\ lenN (current E l) = v + 1) ->
  okOpeningAndValue c {| ov_opening := pv_opening p; ov_value := pv_value p |} -> signedByOperator c leafVerify l v (pv_value p) ->
  (forall s r s' evs, run (honest (observed W)) (programFor version v) s = (r, s', evs) -> smooth (observed W) tracker0 evs) ->
  (advances n (getLast state) \/
   forall fr s a s' evs, frontier n = Ok fr -> run (honest (observed W)) (programFor version v) s = (Ok a, s', evs) -> forall x, In x fr -> touched evs x) ->
  honestAnswer W (pbind (updateView c now n (getLast state)) (fun _ => programFor version v)) = Ok pos ->
  Forall2 (fun e h => logEntryHash (full f) e = Ok h) (entriesOf E) leaves -> Mth (full f) leaves root ->
  let req := {| sq_last := getLast state; sq_label := l; sq_version := version |} in
  exists resp proof v3 pr front,
    serverSearch (full f) hs c vrf now (serverOf t) req = Ok resp /\
    sr_head resp = headFor (getLast state) /\ sr_value resp = pv_value p /\ sr_opening resp = pv_opening p /\
    sr_version resp = (match version with None => Some v | Some _ => None end) /\
    (getLast state <> Some n -> proof = cp_incl (sr_search resp)) /\
    checkSearch (full f) hs c now vrfVerify leafVerify state req (withLogProof resp proof) = Ok (v3, v, pos) /\
    v_state v3 = state /\ v_fth v3 = headFor (getLast state) /\ v_n v3 = n /\ v_nP v3 = None /\ v_m v3 = getLast state /\
    dpFinish (full f) hs (v_d v3) n None (getLast state) = Ok pr /\
    logRoot (full f) hs n (pr_subtrees pr) = Ok root /\ FullValues (full f) leaves n (pr_subtrees pr) /\ pr_additional pr = [] /\
    frontier n = Ok front /\ pr_entries pr = map (fun x => (x, entryAt W x)) front.
Proof.
  intros G Ep Hv Hver OkV SgV SM CV HA FL HM req.
  pose proof (kept_size state G) as KS. destruct (state_entries state G) as (KP & KV & KF). specialize (KV leaves FL).
  pose proof HfL as HfL'. pose proof Hsm as Hsm'. assert (Hpos : 0 < hs) by lia.
  destruct (pursue f hs W HF Hsm' Hpos c now (programFor version v) (retained state) (getLast state) pos SM KP KS CV HA) as (s' & evs & fr & ER & Sm & EF & HC).
  destruct (talk f hs W HF HfL' Hsm' Hpos _ (Ok pos) s' evs (retained state) fr leaves root ER Sm (proj1 KP) EF HC FL HM) as (dts & dps & tr' & M & R & em & lv & T1 & T2 & T3).
  cbn zeta in T1, T2, T3. change (lenN (w_entries W)) with n in *.
  destruct (base_spec v Hv) as (base & Eb & Iv & _ & ND & Fb & l0 & Ezero).
  destruct (HV) as (HL & HK & _). specialize (HL l Hl).
  assert (Hkey : forall u, In u base -> u < 2 ^ 32 /\ lenN (keyOf vrf l u) = hs /\ w_key W u = keyOf vrf l u).
  { intros u I. rewrite Forall_forall in Fb. specialize (Fb u I). assert (u < 2 ^ 32) by (change (2 ^ 31) with 2147483648 in Fb; change (2 ^ 32) with 4294967296; lia).
    split; [assumption|]. split; [unfold lenN; rewrite (HK l u Hl) by assumption; lia|]. cbn [w_key worldOf]. apply N.ltb_lt in H. now rewrite H. }
  destruct (server_ladder hs vrf l HL base (newProduced (w_index W)) ND) as (vmS & proofs & ES & FS & KS1 & _).
  { intros u I. split; [now apply Hkey|reflexivity]. }
  cbn [newProduced q_index q_tracker q_ts q_proofs q_roots] in ES.
  (* the versions asked for are in the ladder *)
  assert (Asked : forall q u, In q dps -> In u (snd q) -> In u base).
  { pose proof (run_within hs (w_entriesDb W) v base Eb ltac:(rewrite Ezero; now left) Iv _
      (only_bind v (updateView c now n (getLast state)) (fun _ => programFor version v) (only_view v c now n (getLast state)) (fun _ => only_program version v))
      (mkP W vmS tracker0 [] [] [] [] (retained state) (stepsTs W (retained state) []) (stepsRoot W (retained state) []))) as Wi.
    rewrite T1 in Wi. cbn [final fst snd mkP d_handle] in Wi. unfold within in Wi. cbn [q_proofs] in Wi. specialize (Wi (Forall_nil _)).
    rewrite Forall_forall in Wi. intros q u Iq Iu. exact (Wi q Iq u Iu). }
  assert (HasS : forall u, In u base -> hasKey W vmS u).
  { intros u I. exists None. split; [|now left]. rewrite (KS1 u I). f_equal. f_equal. symmetry. now apply Hkey. }
  (* the proofs of inclusion in the log *)
  destruct (T3 None (option_map (fun k => (k, kept state)) (getLast state)) KV Logic.I) as (inclC & EC & KC).
  replace (option_map fst (option_map (fun k => (k, kept state)) (getLast state))) with (getLast state) in * by (destruct (getLast state); reflexivity).
  destruct head_ok as (th & Eth & Sth & _).
  assert (exists mS inclS, serverHead (serverOf t) (getLast state) = Ok (headFor (getLast state), n, None, mS) /\
    getBatch (full f) hs (w_logDb W) lv n None mS = Ok inclS /\ (getLast state <> Some n -> inclC = inclS)) as (mS & inclS & EH & EG & Heq).
  { unfold serverHead, headFor. cbn [serverOf sv_head sv_auditor option_map]. rewrite Eth, Sth. destruct (getLast state) as [k|].
    - destruct (N.eqb_spec k n) as [->|Hne].
      + destruct (T3 None None Logic.I Logic.I) as (inclS & EG & _). exists None, inclS. split; [reflexivity|]. split; [exact EG|]. intro A. now contradiction A.
      + destruct (N.ltb_spec n k); [lia|]. exists (Some k), inclC. auto.
    - exists None, inclC. auto. }
  destruct (T2 vmS None mS inclS) as (ps & q' & EO & FP & NC & NK).
  { apply Forall_forall. intros q Iq. apply Forall_forall. intros u Iu. apply HasS. eapply Asked; eauto. }
  { exact EG. }
  (* the server *)
  destruct HT as (HD & Hd & _). assert (Hv32 : v < 2 ^ 32) by (change (2 ^ 31) with 2147483648 in Hv; change (2 ^ 32) with 4294967296; lia).
  pose proof (ds_versions _ _ _ _ _ _ HD l v Hl Hv32) as DV. rewrite Ep in DV. destruct DV as (raw2 & M2 & G2 & C2).
  assert (EGV : getVersion c (durable (t_tx t)) l v = Ok {| ov_opening := pv_opening p; ov_value := pv_value p |}).
  { unfold getVersion. rewrite Hd, G2. pose proof (proj1 (codec_openingAndValue c) _ raw2 [] OkV M2) as K. rewrite app_nil_r in K. rewrite K. reflexivity. }
  assert (EI : serverIndex (serverOf t) l = Ok (w_index W)).
  { unfold serverIndex. cbn [serverOf sv_db]. rewrite Hd. apply (ds_index _ _ _ _ _ _ HD l Hl). }
  set (greatest := (Z.of_nat (List.length (w_index W)) - 1)%Z).
  assert (Hgr : version = None -> greatest = Z.of_N v).
  { intro Ev. destruct Hver as [Hver|[_ Hver]]; [congruence|]. unfold greatest. cbn [w_index worldOf]. rewrite map_length. unfold lenN in Hver. lia. }
  assert (ET : searchTarget version greatest = v).
  { unfold searchTarget. destruct Hver as [->|[-> Hver]]; [reflexivity|]. rewrite (Hgr eq_refl). destruct (Z.ltb_spec (Z.of_N v) 0); [lia|].
    apply N2Z.inj. rewrite toU32_id; [reflexivity|]. change (2 ^ 31) with 2147483648 in Hv. lia. }
  assert (EL : searchLadderFor version greatest = Ok base).
  { rewrite <- (search_ladder_base v base Eb). unfold searchLadderFor. destruct Hver as [->|[-> Hver]]; [reflexivity|]. rewrite (Hgr eq_refl). destruct (Z.ltb_spec (Z.of_N v) 0); [lia|].
    assert (EU : toU32 (Z.of_N v) = v) by (apply N2Z.inj; rewrite toU32_id; [reflexivity|]; change (2 ^ 31) with 2147483648 in Hv; lia). now rewrite EU. }
  set (dS0 := mkP W vmS tracker0 [] [] [] [] (retained state) (stepsTs W (retained state) []) (stepsRoot W (retained state) [])) in *.
  specialize (T1 vmS). apply split_run in T1. destruct T1 as ([] & d1 & e1 & e2 & Eu & Er). fold dS0 in Eu.
  set (qS := {| q_index := w_index W; q_versions := vmS; q_tracker := tracker0; q_ts := []; q_proofs := []; q_roots := [] |}) in *.
  assert (EVw : serverView hs c now (serverOf t) (getLast state) n (newDataProvider qS) = Ok d1).
  { unfold serverView.
    assert (E0 : match getLast state with None => Ok (newDataProvider qS)
              | Some k => let* es := frontierEntries hs (serverOf t) k in Ok (match addRetained (newDataProvider qS) [] es with Ok d' => d' | _ => newDataProvider qS end) end = Ok dS0).
    { destruct (addRetained_true f hs W HF Hsm' Hpos (retained state) [] qS (proj1 KP)) as (M0 & R0 & EA & -> & ->).
      destruct (getLast state) as [k|].
      - rewrite KF. cbn [bind]. rewrite EA. reflexivity.
      - f_equal. unfold dS0. rewrite KF. reflexivity. }
    rewrite E0. cbn [bind]. unfold exec, serverHandle. cbn [serverOf sv_db].
    change (fun x : N => mget (x_entries (durable (t_tx t))) x) with (w_entriesDb W). rewrite Eu. reflexivity. }
  set (steps := searchSteps version greatest q' base proofs).
  set (resp := {| sr_head := headFor (getLast state); sr_version := match version with None => Some v | Some _ => None end;
                  sr_opening := pv_opening p; sr_value := pv_value p; sr_ladder := steps;
                  sr_search := {| cp_ts := dts; cp_proofs := ps; cp_roots := em; cp_incl := inclS |} |}).
  assert (ESv : serverSearch (full f) hs c vrf now (serverOf t) req = Ok resp).
  { unfold serverSearch. cbn [req sq_last sq_label sq_version]. rewrite EH. cbn [bind]. rewrite EI. cbn [bind]. fold greatest. rewrite ET, EL. cbn [bind].
    cbn [serverOf sv_db]. rewrite EGV. cbn [bind]. rewrite ES. cbn [bind]. fold qS. change {| sv_db := durable (t_tx t); sv_head := t_head t; sv_auditor := None |} with (serverOf t).
    rewrite EVw. cbn [bind].
    assert (EP : match version with None => greatestVersionSearch c v n | Some v0 => fixedVersionSearch c v0 n end = programFor version v).
    { unfold programFor. destruct Hver as [->|[-> _]]; reflexivity. }
    rewrite EP. unfold serverHandle. cbn [serverOf sv_db]. change (fun x : N => mget (x_entries (durable (t_tx t))) x) with (w_entriesDb W). rewrite Er. cbn [result final fst snd bind].
    change (x_log (durable (t_tx t))) with (w_logDb W). change (x_prefix (durable (t_tx t))) with (w_prefixDb W). rewrite EO. reflexivity. }
  (* the client *)
  set (com := fun u : N => if u =? v then Some (w_com W v) else qCommitment q' u).
  assert (HKC : forall u, List.length (w_key W u) = nhs /\ List.length (w_com W u) = nhs) by (destruct HF as (_ & _ & _ & _ & _ & _ & _ & K & _); exact K).
  assert (Hcom : forall u, In u base -> com u = None \/ com u = Some (w_com W u)).
  { intros u I. unfold com. destruct (N.eqb_spec u v) as [->|]; [auto|]. unfold qCommitment. destruct (NK u (HasS u I)) as (c2 & -> & Hc2). exact Hc2. }
  assert (ECm : labelCommitment (full f) (pv_opening p) l v (pv_value p) = Ok (w_com W v)).
  { rewrite C2. cbn [w_com worldOf]. now rewrite Ep. }
  assert (exists v0, newCVerifier state (getLast state) (headFor (getLast state)) (sr_search (withLogProof resp inclC)) = Ok v0 /\
    v_state v0 = state /\ v_fth v0 = headFor (getLast state) /\ v_n v0 = n /\ v_nP v0 = None /\ v_m v0 = getLast state /\
    v_d v0 = mkR [] tracker0 dts ps em inclC (kept state) (retained state) (stepsTs W (retained state) []) (stepsRoot W (retained state) [])) as (v0 & EN & Ev1 & Ev2 & Ev3 & Ev4 & Ev5 & Ev6).
  { unfold newCVerifier, newReceived. cbn [withLogProof sr_search resp cp_ts cp_proofs cp_roots cp_incl].
    set (rr := {| r_ts := dts; r_proofs := ps; r_roots := em; r_incl := inclC; r_versions := []; r_tracker := tracker0 |}).
    assert (E0 : match state with None => Ok (newDataProvider rr) | Some s => addRetained (newDataProvider rr) (cs_subtrees s) (cs_entries s) end =
                 Ok (mkR [] tracker0 dts ps em inclC (kept state) (retained state) (stepsTs W (retained state) []) (stepsRoot W (retained state) []))).
    { destruct state as [st|]; [|reflexivity]. destruct (addRetained_true f hs W HF Hsm' Hpos (retained (Some st)) (kept (Some st)) rr (proj1 KP)) as (M0 & R0 & EA & -> & ->). exact EA. }
    rewrite E0. cbn [bind].
    assert (E1 : match fth_head (headFor (getLast state)), getLast state with Some th, _ => Ok (th_size th) | None, Some k => Ok k | None, None => Fail "no tree head was provided when required" end = Ok n).
    { unfold headFor. destruct (getLast state) as [k|].
      - destruct (N.eqb_spec k n) as [->|]; cbn [sameHead fth_head]; [reflexivity|]. rewrite Eth, Sth. reflexivity.
      - cbn [fth_head]. rewrite Eth, Sth. reflexivity. }
    rewrite E1. cbn [bind]. eexists. split; [reflexivity|]. cbn. repeat split; auto.
    unfold headFor. destruct (getLast state) as [k|]; [destruct (k =? n)|]; reflexivity. }
  destruct (client_ladder hs vrf vrfVerify l Hvrf [(v, w_com W v)] com base steps v0 ND) as (vmC & ELd & KC1 & _).
  { intros u _. unfold vVersions. rewrite Ev6. reflexivity. }
  { unfold steps, searchSteps. apply (Forall2_steps (stepFor vrf l)); [exact FS|]. intros u pf I St. cbn [ls_proof ls_commitment]. split; [exact St|]. split; [now apply Hkey|]. split.
    - destruct (Hcom u I) as [-> | ->]; [exact Logic.I|]. destruct (HKC u) as [_ K]. unfold lenN. lia.
    - assert (EPo : match version with None => negb (Z.of_N u =? greatest)%Z | Some w => negb (u =? w) end = negb (u =? v)).
      { destruct version as [w|]; [destruct Hver as [[= ->]|[? _]]; [reflexivity|discriminate]|]. rewrite (Hgr eq_refl). f_equal. destruct (N.eqb_spec u v), (Z.eqb_spec (Z.of_N u) (Z.of_N v)); auto; lia. }
      rewrite EPo. unfold com. cbn [mget]. destruct (N.eqb_spec u v) as [->|Hne].
      + cbn [negb]. auto.
      + cbn [negb]. reflexivity. }
  assert (KD : Forall (fun q => Forall (knows hs W vmC (fst q)) (snd q)) dps).
  { apply Forall_forall. intros q Iq. apply Forall_forall. intros u Iu. assert (Ib := Asked q u Iq Iu). exists (com u). split.
    - rewrite (KC1 u Ib). f_equal. f_equal. symmetry. now apply Hkey.
    - destruct (Z.leb_spec (Z.of_N u) (h_g (observed W) (fst q))) as [Hu|Hu].
      + unfold com. destruct (N.eqb_spec u v) as [->|]; [reflexivity|]. unfold qCommitment. rewrite (NC q u Iq Iu Hu). reflexivity.
      + destruct (Hcom u Ib) as [-> | ->]; [exact Logic.I|]. apply HKC. }
  destruct (KC ps vmC FP KD) as (dC & pr & ERc & EFi & EFr & EFv & EFa & EFe).
  replace (match option_map (fun k => (k, kept state)) (getLast state) with Some (_, old) => old | None => [] end) with (kept state) in ERc
    by (clear; destruct state; reflexivity).
  apply split_run in ERc. destruct ERc as ([] & dC1 & f1 & f2 & Eu2 & Er2).
  set (v3 := setProvider (setProvider (withVersions v0 vmC) dC1) dC).
  exists resp, inclC, v3, pr, fr. split; [exact ESv|]. split; [reflexivity|]. split; [reflexivity|]. split; [reflexivity|]. split; [reflexivity|]. split; [exact Heq|].
  split; [|repeat split; auto].
  unfold checkSearch. cbn [req sq_last sq_label sq_version]. change (sr_head (withLogProof resp inclC)) with (headFor (getLast state)). rewrite EN. cbn [bind].
  assert (ESV : searchedVersion req (withLogProof resp inclC) = Ok v).
  { unfold searchedVersion. cbn [req sq_version withLogProof sr_version resp]. destruct Hver as [->|[-> _]]; reflexivity. }
  rewrite ESV. cbn [bind]. cbn [withLogProof sr_value sr_opening sr_ladder resp].
  assert (EUV : verifyUpdateValue c leafVerify l v (pv_value p) = Ok tt).
  { unfold verifyUpdateValue. destruct OkV as [_ OkS]. cbn [ov_value] in OkS. unfold okUpdateValue, okSuffix in OkS. destruct (N.eqb_spec (pc_mode c) ThirdPartyManagement) as [Em|Em]; cbn [negb].
    - destruct (SgV Em) as (tbs & sg & -> & -> & K). cbn [bind]. now rewrite K.
    - destruct (uv_sig (pv_value p)); [|reflexivity]. exfalso. apply Em, OkS. eauto. }
  rewrite EUV. cbn [bind]. rewrite (search_ladder_base v base Eb). cbn [bind]. rewrite ECm. cbn [bind]. unfold processLadder.
  assert (Len : List.length steps = List.length base).
  { unfold steps, searchSteps. rewrite map_length, combine_length. pose proof (LogTreeProofs.Forall2_len _ _ _ FS) as Q. unfold lenN in Q. lia. }
  rewrite Len, Nat.eqb_refl. cbn [negb]. rewrite ELd. cbn [bind]. unfold execV at 1. change (v_n (withVersions v0 vmC)) with (v_n v0). change (v_m (withVersions v0 vmC)) with (v_m v0). rewrite Ev3, Ev5.
  assert (EDC : v_d (withVersions v0 vmC) = mkR vmC tracker0 dts ps em inclC (kept state) (retained state) (stepsTs W (retained state) []) (stepsRoot W (retained state) [])).
  { unfold withVersions. cbn [setProvider v_d]. rewrite Ev6. reflexivity. }
  rewrite EDC, Eu2. cbn [result final fst snd bind]. unfold execV. cbn [setProvider v_n v_d]. change (v_n (withVersions v0 vmC)) with (v_n v0). rewrite Ev3.
  fold (programFor version v). rewrite Er2. reflexivity.
Qed.
End Served.
