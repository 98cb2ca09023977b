(** Soundness of searches against the log of a server: what the server has hashed. *)
From Verif Require Import Base BaseProofs LogMathSpec LogMathProofs2 LogTreeModel LogTreeSpec LogTreeProofs LogTreeProofs3 LogVerifyProofs2 LogChunkProofs7 TransMathModel TransMathSpec TransMathProofs2 LaddersModel PrefixModel PrefixSpec PrefixHistProofs
  CodecModel CodecSpec CodecProofs3 AlgModel HandleModel HandleProofs StoreModel CommitModel CommitProofs MutateModel MutateSpec MutateProofs5 ServerModel ClientModel ClientProofs ClientProofs2 ClientSpec SearchProofs SearchProofs2 SearchProofs3
  SoundSpec AcceptProofs SoundProofs SoundProofs2.
Open Scope N_scope.
Local Open Scope list_scope.

(** ** Properties that hold as soon as enough inputs are in the table *)
Definition ev (f : bytes -> bytes) (P : (bytes -> option bytes) -> Prop) : Prop := exists T0, forall T, incl T0 T -> P (restrict f T).

Section Ev.
Variable f : bytes -> bytes.

Lemma ev_and P Q : ev f P -> ev f Q -> ev f (fun H => P H /\ Q H).
Proof.
  intros (A & PA) (B & QB). exists (A ++ B). intros T I. split; [apply PA|apply QB]; intros x Hx; apply I, in_or_app; auto.
Qed.
Lemma ev_map (P Q : (bytes -> option bytes) -> Prop) : (forall H, P H -> Q H) -> ev f P -> ev f Q.
Proof. intros PQ (A & PA). exists A. intros T I. apply PQ, PA, I. Qed.
Lemma ev_always (P : (bytes -> option bytes) -> Prop) : (forall H, P H) -> ev f P.
Proof. intro p. exists []. auto. Qed.
Lemma ev_all {X} (P : X -> (bytes -> option bytes) -> Prop) (L : list X) : (forall x, In x L -> ev f (P x)) -> ev f (fun H => forall x, In x L -> P x H).
Proof.
  induction L as [|y L IH]; intro A.
  - exists []. intros T _ x [].
  - apply (ev_map (fun H => P y H /\ forall x, In x L -> P x H)).
    + intros H [B C] x [<-|I]; auto.
    + apply ev_and; [apply A; left; reflexivity|]. apply IH. intros x I. apply A. right. exact I.
Qed.
Lemma ev_hash x : ev f (fun H => H x = Some (f x)).
Proof.
  exists [x]. intros T I. unfold restrict. replace (existsb (bytes_eqb x) T) with true; [reflexivity|]. symmetry. apply existsb_exists. exists x.
  split; [apply I; left; reflexivity|now apply bytes_eqb_eq].
Qed.
Lemma ev_full x h : full f x = Some h -> ev f (fun H => H x = Some h).
Proof. intro E. injection E as <-. apply ev_hash. Qed.

Lemma ev_thash hs t : forall h, thash (full f) hs t = Some h -> ev f (fun H => thash H hs t = Some h).
Proof.
  induction t as [|k c|l IHl r IHr]; cbn [thash]; intros h E.
  - apply ev_always. intros _. exact E.
  - now apply ev_full.
  - destruct (thash (full f) hs l) as [a|]; [|discriminate]. destruct (thash (full f) hs r) as [b|]; [|discriminate].
    eapply ev_map; [|apply (ev_and _ _ (IHl a eq_refl) (ev_and _ _ (IHr b eq_refl) (ev_full _ _ E)))]. intros H (A & B & C). cbn beta in *. now rewrite A, B.
Qed.

Lemma ev_Mth L w : Mth (full f) L w -> ev f (fun H => Mth H L w).
Proof.
  induction 1 as [v|l r vl vr h A B _ IHl _ IHr E].
  - apply ev_always. constructor.
  - eapply ev_map; [|apply (ev_and _ _ IHl (ev_and _ _ IHr (ev_full _ _ E)))]. intros H (P & Q & R). cbn beta in *. econstructor; eassumption.
Qed.

Lemma ev_FullValues L n fs : FullValues (full f) L n fs -> ev f (fun H => FullValues H L n fs).
Proof.
  intros (parts & P & F). apply (ev_map (fun H => Forall2 (fun z v => NodeVal H L (fst z) (snd z) v) parts fs)).
  - intros H G. exists parts. auto.
  - clear P. induction F as [|z v parts fs A F IH]; [apply ev_always; constructor|]. eapply ev_map; [|apply (ev_and _ _ (ev_Mth _ _ A) IH)]. intros H (B & C). constructor; assumption.
Qed.

Lemma ev_leaves es leaves : Forall2 (fun e h => logEntryHash (full f) e = Ok h) es leaves -> ev f (fun H => Forall2 (fun e h => logEntryHash H e = Ok h) es leaves).
Proof.
  induction 1 as [|e h es leaves E F IH]; [apply ev_always; constructor|]. unfold logEntryHash in E. apply bind_ok in E. destruct E as (raw & E1 & E2). injection E2 as <-.
  eapply ev_map; [|apply (ev_and _ _ (ev_hash raw) IH)]. intros H (A & B). cbn beta in *. constructor; [|exact B]. unfold logEntryHash. rewrite E1. cbn [bind]. now rewrite A.
Qed.

Lemma ev_hmac key msg mac : hmac (full f) key msg = Ok mac -> ev f (fun H => hmac H key msg = Ok mac).
Proof.
  unfold hmac. set (padded := key ++ _). intro E. apply bind_ok in E. destruct E as (inner & E2 & E). unfold hash in *. injection E2 as <-. injection E as <-.
  eapply ev_map; [|exact (ev_and _ _ (ev_hash (map (xorByte 54) padded ++ msg)) (ev_hash (map (xorByte 92) padded ++ f (map (xorByte 54) padded ++ msg))))].
  intros H (A & B). cbn beta in *. rewrite A. cbn [of_opt bind]. rewrite B. reflexivity.
Qed.
Lemma ev_commitment o l v u com : labelCommitment (full f) o l v u = Ok com -> ev f (fun H => labelCommitment H o l v u = Ok com).
Proof.
  unfold labelCommitment. destruct (commitmentValue l v u) as [cv| | |]; try discriminate. cbn [bind]. unfold Commit. apply ev_hmac.
Qed.
End Ev.

(** ** The versions of a label that is not removed *)
Lemma after_snoc rs r : forall n cur, labelsAfter n cur (rs ++ [r]) = labelsAfter n cur rs ++ [publishes (n + lenN rs) (List.last (labelsAfter n cur rs) cur) r].
Proof.
  induction rs as [|r0 rs IH]; intros n cur.
  - cbn. now rewrite N.add_0_r.
  - cbn [app labelsAfter]. rewrite IH. cbn [app]. replace (n + 1 + lenN rs) with (n + lenN (r0 :: rs)) by (unfold lenN; cbn [List.length]; lia). f_equal. f_equal. f_equal. f_equal.
    destruct (labelsAfter (n + 1) (publishes n cur r0) rs) as [|P Ps] eqn:E; [reflexivity|]. cbn [last]. clear E. revert P. induction Ps as [|P' Ps IHp]; intro P; [reflexivity|]. apply IHp.
Qed.
Lemma after_len rs : forall n cur, List.length (labelsAfter n cur rs) = List.length rs.
Proof. induction rs as [|r rs IH]; intros; cbn; [reflexivity|]. f_equal. apply IH. Qed.

Lemma labels_grow l rs : Forall (fun r => ~ In l (rq_remove r)) rs ->
  forall i P, nth_error (labelsAfter 0 noLabels rs) i = Some P -> exists rest, labelsNow rs l = P l ++ rest.
Proof.
  induction rs as [|r rs IH] using rev_ind; intro F.
  - intros i P. destruct i; discriminate.
  - apply Forall_app in F. destruct F as [F Fr]. apply Forall_inv in Fr. specialize (IH F). unfold labelsNow. rewrite after_snoc, last_last, N.add_0_l.
    fold (labelsNow rs).
    assert (Q : publishes (lenN rs) (labelsNow rs) r l = labelsNow rs l ++ nextVersions (rq_opening r) (lenN rs) l (lenN (labelsNow rs l)) (valuesFor (rq_add r) l)).
    { unfold publishes, publish, MutateSpec.kept. destruct (existsb (bytes_eqb l) (rq_remove r)) eqn:X; [|reflexivity].
      exfalso. apply Fr. apply existsb_exists in X. destruct X as (y & Iy & Ey). apply bytes_eqb_eq in Ey. now subst. }
    intros i P Ei. destruct (Nat.lt_ge_cases i (List.length (labelsAfter 0 noLabels rs))) as [L|L].
    + rewrite nth_error_app1 in Ei by exact L. destruct (IH i P Ei) as (rest & Er). rewrite Q, Er, <- app_assoc. eauto.
    + rewrite nth_error_app2 in Ei by exact L. destruct (i - _)%nat as [|j]; [|destruct j; discriminate]. injection Ei as <-. exists []. now rewrite app_nil_r.
Qed.

Lemma labelsAfter_firstn rs : forall k n cur, labelsAfter n cur (firstn k rs) = firstn k (labelsAfter n cur rs).
Proof. induction rs as [|r rs IH]; intros k n cur; destruct k; cbn; [reflexivity..|]. now rewrite IH. Qed.

Lemma nth_firstn {A} (l : list A) : forall k i, (i < k)%nat -> nth_error (firstn k l) i = nth_error l i.
Proof. induction l as [|a l IH]; intros k i L; destruct k; [lia|destruct i; reflexivity|lia|]. destruct i; [reflexivity|]. cbn. apply IH. lia. Qed.
Lemma nth_firstn_some {A} (l : list A) k i a : nth_error (firstn k l) i = Some a -> nth_error l i = Some a /\ (i < k)%nat.
Proof.
  intro E. assert (L : (i < List.length (firstn k l))%nat) by (apply nth_error_Some; congruence). rewrite firstn_length in L.
  rewrite nth_firstn in E by lia. split; [exact E|lia].
Qed.
Lemma Forall2_firstn {A B} (P : A -> B -> Prop) l m : Forall2 P l m -> forall k, Forall2 P (firstn k l) (firstn k m).
Proof. induction 1 as [|a b l m E F IH]; intro k; destruct k; cbn; constructor; auto. Qed.

Lemma Forall_firstn3 {A} (P : A -> Prop) l : Forall P l -> forall k, Forall P (firstn k l).
Proof. induction 1 as [|a l E F IH]; intro k; destruct k; cbn; constructor; auto. Qed.

Lemma last_at {A} (l : list A) d : List.last l d = nth (List.length l - 1) l d.
Proof. induction l as [|a [|b l] IH]; [reflexivity|reflexivity|]. change (List.last (a :: b :: l) d) with (List.last (b :: l) d). rewrite IH. cbn [List.length]. replace (S (S (List.length l)) - 1)%nat with (S (S (List.length l) - 1)) by lia. reflexivity. Qed.

Lemma SFront_bound a len fr : SFront a len fr -> forall x, In x fr -> x < a + len.
Proof.
  induction 1 as [a len L|a len rest L F IH]; intros x I; unfold sroot in *.
  - destruct I as [<-|[]]. lia.
  - destruct I as [<-|I]; [lia|]. apply IH in I. lia.
Qed.
Lemma frontier_bound k front x : 1 <= k < 2 ^ 64 -> frontier k = Ok front -> In x front -> x < k.
Proof.
  intros Hk E I. destruct (c10_frontier k Hk) as (fr & E' & F). rewrite E in E'. injection E' as <-. apply (SFront_bound _ _ _ F) in I. lia.
Qed.

Section Run.
Variable f : bytes -> bytes.
Variable hs : N.
Hypothesis Hf : forall x, lenN (f x) = hs.
Hypothesis Hhs : 0 < hs <= 32.
Variable c : pubConfig.
Hypothesis Hc : pc_hs c = N.to_nat hs.
Variable vrf : bytes -> bytes * bytes.
Variable Ls : list bytes.
Hypothesis HV : vrfGood hs vrf Ls.
Variable sign : bytes -> res bytes.
Variable vrfVerify : bytes -> bytes -> option bytes.
Hypothesis Hvrf : vrfVerifies vrf vrfVerify.
Variable leafVerify : bytes -> bytes -> bool.
Variable now : N.
Local Notation valid := (fun tbs sg : bytes => sign tbs = Ok sg).
Local Notation nhs := (N.to_nat hs).

Lemma entries_hashed t E : treeOf f hs vrf Ls c valid t E -> exists leaves, Forall2 (fun e h => logEntryHash (full f) e = Ok h) (entriesOf E) leaves.
Proof. intros (HD & _ & _). destruct (ds_log _ _ _ _ _ _ HD) as (leaves & fs & F & _). eauto. Qed.

(** Everything the log entries say about the label, as soon as enough inputs are in the table. *)
Lemma entries_hold t rs E l : treeOf f hs vrf Ls c valid t E -> map ep_labels E = labelsAfter 0 noLabels rs -> In l Ls -> Forall (fun r => ~ In l (rq_remove r)) rs ->
  ev f (fun H => forall x e vs, nth_error (entriesOf E) x = Some e -> nth_error (map (fun ep => ep_labels ep l) E) x = Some vs -> holdsVersions H nhs vrf l e vs).
Proof.
  intros (HD & _ & _) Q Hl Fr. destruct (ds_prefix _ _ _ _ _ _ HD) as (vs0 & Hi & Len & Ep). destruct (labelsNow_last _ _ Q) as [Cu _].
  assert (A : ev f (fun H => forall ep, In ep E -> holdsVersions H nhs vrf l (ep_entry ep) (ep_labels ep l))).
  { apply ev_all. intros ep I. apply In_nth_error in I. destruct I as (i & Ei). destruct (Ep i ep Ei) as (m & Em & Mf). destruct (hist_trie f nhs ltac:(intro y; pose proof (Hf y); unfold lenN in *; lia) ltac:(lia) _ _ _ _ _ Hi Em) as (tr & (C1 & C2) & Th).
    assert (B : ev f (fun H => forall w, In w (seq 0 (List.length (ep_labels ep l))) -> N.of_nat w < 2 ^ 32 -> match nth_error (ep_labels ep l) w with
              | Some p => labelCommitment H (pv_opening p) l (N.of_nat w) (pv_value p) = Ok (comOf f l (N.of_nat w) p) | None => True end)).
    { apply ev_all. intros w Iw. destruct (nth_error (ep_labels ep l) w) as [p|] eqn:Ew; [|apply ev_always; auto].
      destruct (N.ltb_spec (N.of_nat w) (2 ^ 32)) as [Lw|Lw]; [|apply ev_always; intros; lia].
      apply (ev_map f (fun H => labelCommitment H (pv_opening p) l (N.of_nat w) (pv_value p) = Ok (comOf f l (N.of_nat w) p))); [auto|]. apply ev_commitment.
      pose proof (ds_versions _ _ _ _ _ _ HD l (N.of_nat w) Hl Lw) as Dv. rewrite Nat2N.id in Dv.
      destruct (labels_grow l rs Fr i (ep_labels ep)) as (rest & Er). { rewrite <- Q. now apply map_nth_error. }
      rewrite <- Cu, Er in Dv. rewrite nth_error_app1, Ew in Dv by (apply nth_error_Some; congruence). destruct Dv as (raw & _ & _ & Dv). exact Dv. }
    eapply ev_map; [|apply (ev_and _ _ _ (ev_thash f nhs tr _ Th) B)]. intros H (T1 & T2). exists tr. split; [exact C1|]. split; [exact T1|].
    intros v Hv. rewrite C2, (Mf l v Hl Hv). destruct (nth_error (ep_labels ep l) (N.to_nat v)) as [p|] eqn:Ev; [|reflexivity]. cbn [option_map]. exists (comOf f l v p). split; [|reflexivity].
    specialize (T2 (N.to_nat v)). rewrite N2Nat.id, Ev in T2. apply T2; [|exact Hv]. apply in_seq. split; [lia|]. cbn. apply nth_error_Some. congruence. }
  eapply ev_map; [|exact A]. intros H B x e vs E1 E2. unfold entriesOf in E1. rewrite nth_error_map in E1, E2. destruct (nth_error E x) as [ep|] eqn:Ex; [|discriminate].
  injection E1 as <-. injection E2 as <-. apply B. eapply nth_error_In; eauto.
Qed.

(** The client's checks against the first [k] entries. *)
Lemma sound_at T t rs E l leaves k state req resp v3 ver pos pr r : treeOf f hs vrf Ls c valid t E -> map ep_labels E = labelsAfter 0 noLabels rs ->
  In l Ls -> Forall (fun r => ~ In l (rq_remove r)) rs -> Forall (fun p => size (pc_openSize c) (pv_opening p)) (labelsNow rs l) -> 1 <= k <= lenN rs ->
  Forall2 (fun e h => logEntryHash (restrict f T) e = Ok h) (entriesOf E) leaves ->
  (forall x e vs, nth_error (entriesOf E) x = Some e -> nth_error (map (fun ep => ep_labels ep l) E) x = Some vs -> holdsVersions (restrict f T) nhs vrf l e vs) ->
  (match state with Some s => forall x e, In (x, e) (cs_entries s) -> nth_error (firstn (N.to_nat k) (entriesOf E)) (N.to_nat x) = Some e | None => True end) ->
  sq_label req = l -> okSearchRequest req -> okSearchResponse c (sq_version req) resp -> noAliases (restrict f T) vrf req resp ->
  checkSearch (restrict f T) hs c now vrfVerify leafVerify state req resp = Ok (v3, ver, pos) ->
  v_n v3 = k -> match v_m v3 with Some m => m <= k | None => True end ->
  dpFinish (restrict f T) hs (v_d v3) (v_n v3) (v_nP v3) (v_m v3) = Ok pr -> logRoot (restrict f T) hs (v_n v3) (pr_subtrees pr) = Ok r -> Mth (restrict f T) (firstn (N.to_nat k) leaves) r ->
  (exists p, nth_error (labelsNow (firstn (N.to_nat k) rs) l) (N.to_nat ver) = Some p /\ sr_value resp = pv_value p /\
     (sq_version req = None -> lenN (labelsNow (firstn (N.to_nat k) rs) l) = ver + 1)) \/ broken f nhs T.
Proof.
  intros Tr Q Hl Fr Op Hk He Hh Hst Rl Rq Rs NA Ck En Em Ef Er Mr. set (kk := N.to_nat k) in *. set (es := firstn kk (entriesOf E)) in *.
  destruct (labelsNow_last _ _ Q) as [Cu LE]. pose proof Tr as (HD & _ & _).
  assert (Lk : (kk <= List.length E)%nat) by (unfold kk, lenN in *; lia).
  assert (Le : lenN es = k) by (unfold es, lenN; rewrite firstn_length; unfold entriesOf; rewrite map_length; unfold kk, lenN in *; lia).
  set (labs := firstn kk (map (fun ep => ep_labels ep l) E)).
  assert (Fr' : Forall (fun r => ~ In l (rq_remove r)) (firstn kk rs)) by now apply Forall_firstn3.
  assert (LA : firstn kk (map ep_labels E) = labelsAfter 0 noLabels (firstn kk rs)) by (rewrite labelsAfter_firstn, Q; reflexivity).
  assert (LN : forall y vs, nth_error labs y = Some vs -> exists P, nth_error (labelsAfter 0 noLabels (firstn kk rs)) y = Some P /\ P l = vs).
  { intros y vs Ey. unfold labs in Ey. apply nth_firstn_some in Ey. destruct Ey as [Ey Ly]. rewrite nth_error_map in Ey. destruct (nth_error E y) as [ep|] eqn:Ee; [|discriminate]. injection Ey as <-.
    exists (ep_labels ep). split; [|reflexivity]. rewrite <- LA, nth_firstn by exact Ly. now apply map_nth_error. }
  destruct (checked_sound f T hs Hf ltac:(lia) vrf vrfVerify Hvrf c Hc now leafVerify l es (firstn kk leaves)) with (labs := labs) (state := state) (req := req) (resp := resp) (v3 := v3) (ver := ver) (pos := pos) (pr := pr) (r := r)
    as [[(y & vs & p & K1 & K2 & K3) K4]|B]; auto.
  - now apply Forall2_firstn.
  - apply Forall_firstn3. apply Forall_forall. intros e I. apply In_nth_error in I. destruct I as (i & Ei). destruct (ds_entries _ _ _ _ _ _ HD (N.of_nat i) e) as (_ & K & _); [now rewrite Nat2N.id|exact K].
  - rewrite Le. pose proof (ds_size _ _ _ _ _ _ HD). lia.
  - intros x e vs E1 E2. apply nth_firstn_some in E1, E2. apply (Hh x e vs); tauto.
  - unfold labs, es, entriesOf. rewrite !firstn_length, !map_length. reflexivity.
  - apply Forall_forall. intros vs I. apply In_nth_error in I. destruct I as (y & Ey). unfold labs in Ey. apply nth_firstn_some in Ey. destruct Ey as [Ey _]. rewrite nth_error_map in Ey. destruct (nth_error E y) as [ep|] eqn:Ee; [|discriminate]. injection Ey as <-.
    destruct (labels_grow l rs Fr y (ep_labels ep)) as (rest & Er'). { rewrite <- Q. now apply map_nth_error. }
    rewrite Er' in Op. apply Forall_app in Op. apply Op.
  - rewrite Le. exact En.
  - rewrite Le. exact Em.
  - left. destruct (LN _ _ K1) as (P & EP & EV). destruct (labels_grow l _ Fr' _ P EP) as (rest & G). exists p.
    assert (Np : nth_error (labelsNow (firstn kk rs) l) (N.to_nat ver) = Some p) by (rewrite G, EV, nth_error_app1; [exact K2|apply nth_error_Some; congruence]).
    split; [exact Np|]. split; [exact K3|]. intro Qv. destruct (K4 Qv) as (vs' & K5 & K6). destruct (LN _ _ K5) as (P' & EP' & EV').
    assert (P' = labelsNow (firstn kk rs)).
    { unfold labelsNow. rewrite last_at. symmetry. apply nth_error_nth. rewrite <- EP'. f_equal. rewrite after_len, firstn_length. rewrite Le. unfold kk, lenN in *. lia. }
    subst P'. rewrite EV'. assert (nth_error vs' (N.to_nat ver) <> None) as A1 by (rewrite <- EV'; congruence). apply nth_error_Some in A1. apply nth_error_None in K6. unfold lenN. lia.
Qed.

(** ** The fields of the verifier *)
Lemma addRetained_sub (h : received) sub ret d : addRetained (newDataProvider h) sub ret = Ok d -> d_subtrees d = sub.
Proof.
  unfold addRetained. set (d0 := {| d_handle := _ |}). assert (A : d_subtrees d0 = sub) by reflexivity. clearbody d0. revert d0 A. induction ret as [|[x e] ret IH]; intros d0 A E; cbn [foldM] in E.
  - injection E as <-. exact A.
  - apply bind_ok in E. destruct E as (d1 & E1 & E). apply (IH d1); [|exact E]. apply bind_ok in E1. destruct E1 as (ts & _ & E1). apply bind_ok in E1. destruct E1 as (rs & _ & E1). injection E1 as <-. exact A.
Qed.

Lemma ladderSteps_sub label : forall vers v ladder manual v', ladderSteps hs vrfVerify label v vers ladder manual = Ok v' -> d_subtrees (v_d v') = d_subtrees (v_d v).
Proof.
  induction vers as [|ver vers IH]; cbn [ladderSteps]; intros v ladder manual v' E; [injection E as <-; reflexivity|].
  destruct ladder as [|st ladder]; [injection E as <-; reflexivity|]. apply bind_ok in E. destruct E as (i & _ & E).
  destruct (vrfVerify i _) as [out|]; [|discriminate].
  destruct (mget manual ver); destruct (ls_commitment st); try discriminate; apply bind_ok in E; destruct E as (v1 & E1 & E); rewrite (IH _ _ _ _ E);
    unfold vAddVersion in E1; apply bind_ok in E1; destruct E1 as (vm & _ & E1); injection E1 as <-; reflexivity.
Qed.

Lemma check_fields T state req resp v3 ver pos : checkSearch (restrict f T) hs c now vrfVerify leafVerify state req resp = Ok (v3, ver, pos) ->
  v_state v3 = state /\ v_fth v3 = sr_head resp /\ v_m v3 = sq_last req /\ searchedVersion req resp = Ok ver /\
  (match fth_head (sr_head resp), sq_last req with Some th, _ => v_n v3 = th_size th | None, Some k => v_n v3 = k | None, None => False end) /\
  (forall s, state = Some s -> d_subtrees (v_d v3) = cs_subtrees s).
Proof.
  unfold checkSearch. intro E.
  apply bind_ok in E. destruct E as (v & E0 & E). apply bind_ok in E. destruct E as (target & Et & E). apply bind_ok in E. destruct E as (u & _ & E).
  apply bind_ok in E. destruct E as (ladder & Ela & E). apply bind_ok in E. destruct E as (com & Ec & E). apply bind_ok in E. destruct E as (v1 & Epl & E).
  apply bind_ok in E. destruct E as ([u2 v2] & Euv & E). apply bind_ok in E. destruct E as ([terminal v3'] & Es & E). injection E as -> -> _.
  pose proof (processLadder_same _ _ _ _ _ _ _ _ Epl) as S1. pose proof (execV_same _ _ _ _ _ _ Euv) as S2. pose proof (execV_same _ _ _ _ _ _ Es) as S3.
  pose proof (same_trans _ _ _ S1 (same_trans _ _ _ S2 S3)) as S. clear S1 S2 S3.
  assert (Sub : d_subtrees (v_d v3) = d_subtrees (v_d v)).
  { unfold processLadder in Epl. destruct (negb _); [discriminate|]. rewrite <- (ladderSteps_sub _ _ _ _ _ _ Epl).
    unfold execV in Euv, Es. apply bind_ok in Euv. destruct Euv as (u3 & Ru & Euv). injection Euv as _ <-. apply bind_ok in Es. destruct Es as (t3 & Rs & Es). injection Es as _ <-. cbn [setProvider v_d].
    rewrite (x_sub _ _ (run_ext (restrict f T) hs _ _)). rewrite (x_sub _ _ (run_ext (restrict f T) hs _ _)). reflexivity. }
  unfold newCVerifier in E0. apply bind_ok in E0. destruct E0 as (d & Ed & E0). apply bind_ok in E0. destruct E0 as (n0 & En & E0). injection E0 as <-.
  destruct S as (A1 & A2 & A3 & A4 & A5). cbn in A1, A2, A3, A4, A5, Sub. repeat split; auto.
  - destruct (fth_head (sr_head resp)); [injection En as <-; exact A3|]. destruct (sq_last req); [injection En as <-; exact A3|discriminate].
  - intros s ->. rewrite Sub. eapply addRetained_sub. exact Ed.
Qed.

(** What is proven about the same log as before is what was known about it. *)
Lemma finish_subtrees T d k nP pr : dpFinish (restrict f T) hs d k nP (Some k) = Ok pr -> pr_subtrees pr = d_subtrees d.
Proof.
  intros E. unfold dpFinish in E. destruct (inspectedLeaves (receivedHandle (restrict f T) hs) d) as [[positions|e|e|] d1] eqn:Ei; try discriminate.
  assert (S1 : d_subtrees d1 = d_subtrees d).
  { unfold inspectedLeaves in Ei. set (lv := nsort _) in Ei. set (em := filter _ lv) in Ei. destruct (hRoots (receivedHandle (restrict f T) hs) (d_handle d) em) as [[roots|e|e|] h]; try discriminate.
    destruct (negb _); [discriminate|]. injection Ei as _ <-. reflexivity. }
  apply bind_ok in E. destruct E as (values & Ev & E). apply bind_ok in E. destruct E as (proof & Ep & E). apply bind_ok in E. destruct E as ([fs ad] & Eb & E).
  apply bind_ok in E. destruct E as (front & Ef & E). apply bind_ok in E. destruct E as (ents & Een & E). injection E as <-. cbn [pr_subtrees]. rewrite <- S1.
  unfold verifyBatch in Eb. cbn [option_map] in Eb. apply bind_ok in Eb. destruct Eb as (v & Rt & Eb). destruct (wfv_retain _ _ _ _ Rt) as (W & Pv & Vv & _).
  destruct (evaluateProof_cases (restrict f T) hs ltac:(lia) v positions k nP values proof W) as [(msg & E')|(fs' & ad' & m4 & Q & pn & pP & pm & E' & Hn & _ & _ & _ & P1 & _ & P2 & _ & _ & _ & _ & _ & F1 & F2 & _)].
  - rewrite Pv. lia.
  - congruence.
  - rewrite E' in Eb. injection Eb as <- <-. rewrite Pv in P2. cbn [optParts] in P2. rewrite (Parts_fun _ _ _ _ P2 P1) in F1. rewrite Vv in F1. clear -F1 F2.
    revert F1. generalize (d_subtrees d1). induction F2 as [|z w zs ws A F IH]; intros bs F1; inversion F1; subst; [reflexivity|]. f_equal; [congruence|]. apply IH. assumption.
Qed.

Lemma hashes_fun es ls ls' : Forall2 (fun e h => logEntryHash (full f) e = Ok h) es ls -> Forall2 (fun e h => logEntryHash (full f) e = Ok h) es ls' -> ls = ls'.
Proof. intro F. revert ls'. induction F as [|e h es ls A F IH]; intros ls' G; inversion G; subst; [reflexivity|]. f_equal; [congruence|now apply IH]. Qed.

Variable sigVerify audVerify : bytes -> bytes -> bool.

Lemma c76_partial t rs l st : runs (full f) hs c vrf sign Ls t rs -> rs <> [] -> In l Ls -> Forall (fun r => ~ In l (rq_remove r)) rs ->
  Forall (fun p => size (pc_openSize c) (pv_opening p)) (labelsNow rs l) -> hasSeen f t (lenN rs) st ->
  exists T0, forall T, incl T0 T -> forall visit k req resp k',
  sq_label req = l -> sq_last req = getLast (Some st) -> okSearchRequest req -> okSearchResponse c (sq_version req) resp -> noAliases (restrict f T) vrf req resp ->
  clientSearch (restrict f T) hs c now vrfVerify sigVerify leafVerify audVerify visit k (Some st) req resp = Ok k' ->
  let published := labelsNow (firstn (N.to_nat (th_size (cs_head st))) rs) l in
  (exists v p, searchedVersion req resp = Ok v /\ nth_error published (N.to_nat v) = Some p /\ sr_value resp = pv_value p /\
     (sq_version req = None -> lenN published = v + 1)) \/ broken f nhs T.
Proof.
  intros R NE Hl Fr Op Hs.
  destruct (run_describes f hs Hf Hhs c vrf Ls HV sign valid (fun _ _ H => H) t rs R) as (E & Tr & Q1 & Q2). destruct (labelsNow_last _ _ Q1) as [A B].
  destruct (entries_hashed t E Tr) as (leaves & FL).
  assert (Ln : lenN rs = lenN (entriesOf E)) by (rewrite B; unfold lenN, entriesOf; now rewrite map_length).
  rewrite Ln in Hs. destruct (seen_genuine f hs Hhs c vrf Ls sign t E st Tr Hs) as (k & h & Hk & Sf). rewrite <- Ln in Hk.
  assert (Le : lenN (firstn (N.to_nat k) (entriesOf E)) = k) by (unfold lenN in *; rewrite firstn_length; lia).
  destruct Sf as (Th & Ch & (lv' & F' & FV) & front & Ef & Een). rewrite Le in Th, FV, Ef.
  pose proof (hashes_fun _ _ _ F' (Forall2_firstn _ _ _ FL (N.to_nat k))) as ->.
  destruct (ev_and f _ _ (entries_hold t rs E l Tr Q1 Hl Fr) (ev_and f _ _ (ev_leaves f _ _ FL) (ev_FullValues f _ _ _ FV))) as (T0 & HT).
  exists T0. intros T I visit kk req resp k' Rl Rla Rq Rs NA Ck. destruct (HT T I) as (G1 & G2 & G3). cbn beta in G1, G2, G3.
  destruct (proj1 (no_head_accepted (restrict f T) hs c now vrfVerify sigVerify leafVerify audVerify visit kk (Some st)) req resp k' Rla Ck) as (st' & Q & Nh). injection Q as <-.
  unfold clientSearch in Ck. apply bind_ok in Ck. destruct Ck as ([[v3 ver] pos] & Ck & E'). apply bind_ok in E'. destruct E' as (upd & Fi & _).
  unfold finish in Fi. apply bind_ok in Fi. destruct Fi as (pr & Fi & _). unfold checkFinish in Fi. apply bind_ok in Fi. destruct Fi as (pr' & Ed & Fi). apply bind_ok in Fi. destruct Fi as (r & Er & Fi).
  destruct (check_fields T (Some st) req resp v3 ver pos Ck) as (S1 & S2 & S3 & S4 & S5 & S6). rewrite Nh, Rla in S5. change (v_n v3 = th_size (cs_head st)) in S5. rewrite Ch, Th in S5.
  assert (S3' : v_m v3 = Some k) by (rewrite S3, Rla; cbn; now rewrite Ch, Th).
  cbn zeta. rewrite Ch, Th.
  assert (Mr : Mth (restrict f T) (firstn (N.to_nat k) leaves) r).
  { rewrite S5, S3' in Ed. pose proof (finish_subtrees _ _ _ _ _ Ed) as Qs. rewrite S5, Qs, (S6 st eq_refl) in Er.
    assert (Ll : lenN (firstn (N.to_nat k) leaves) = k) by (rewrite <- (LogTreeProofs.Forall2_len _ _ _ (Forall2_firstn _ _ _ FL (N.to_nat k))); exact Le).
    apply (logRoot_spec (restrict f T) hs (restrict_sized f hs T Hf) ltac:(lia)) with (fs := cs_subtrees st).
    - rewrite Ll. destruct Tr as (HD & _). pose proof (ds_size _ _ _ _ _ _ HD). unfold LogMathProofs.two63. lia.
    - apply Forall_firstn3. eapply leaf_sizes; eassumption.
    - rewrite Ll. exact G3.
    - rewrite Ll. exact Er. }
  destruct (sound_at T t rs E l leaves k (Some st) req resp v3 ver pos pr' r Tr Q1 Hl Fr Op Hk G2 G1) as [(p & K1 & K2 & K3)|Br]; auto.
  - intros x e Ix. rewrite Een in Ix. apply in_map_iff in Ix. destruct Ix as (y & Qy & Iy). injection Qy as -> <-. apply nth_error_nth'. 
    pose proof (frontier_bound k front x ltac:(destruct Tr as (HD & _); pose proof (ds_size _ _ _ _ _ _ HD); lia) Ef Iy) as Lx. unfold lenN in Le. lia.
  - rewrite S3'. lia.
  - left. exists ver, p. auto.
Qed.
End Run.
