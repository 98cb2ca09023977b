(** Soundness of searches: what was proven to the client is true of the log. *)
From Verif Require Import Base BaseProofs LogTreeModel LogTreeSpec LogTreeProofs LogTreeProofs3 LogVerifyProofs2 LogChunkProofs7 TransMathModel LaddersModel PrefixModel PrefixSpec PrefixHistProofs
  CodecModel CodecSpec CodecProofs3 AlgModel HandleModel HandleProofs CommitModel CommitProofs MutateModel MutateSpec ServerModel ClientModel ClientProofs ClientProofs2 ClientSpec SoundSpec AcceptProofs.
From Verif Require Import LogTreeProperties PrefixProperties.
Open Scope N_scope.
Local Open Scope list_scope.

Lemma mapM_inv {A B} (k : A -> res B) : forall l l', mapM k l = Ok l' -> Forall2 (fun a b => k a = Ok b) l l'.
Proof.
  induction l as [|a l IH]; cbn [mapM]; intros l' E; [injection E as <-; constructor|].
  apply bind_ok in E. destruct E as (b & E1 & E). apply bind_ok in E. destruct E as (r & E2 & E). injection E as <-. constructor; auto.
Qed.

Lemma Forall2_in_l {A B} (R : A -> B -> Prop) l l' a : Forall2 R l l' -> In a l -> exists b, R a b.
Proof. induction 1; intros []; subst; eauto. Qed.

Lemma Forall2_both {A B} (R Q : A -> B -> Prop) l l' a : Forall2 R l l' -> Forall2 Q l l' -> In a l -> exists b, R a b /\ Q a b.
Proof.
  intros F. induction F as [|x y l l' V F IH]; intros G I; [destruct I|]. inversion G; subst. destruct I as [->|I]; eauto.
Qed.

Lemma Forall2_nth {A B} (R : A -> B -> Prop) l l' i b : Forall2 R l l' -> nth_error l' i = Some b -> exists a, nth_error l i = Some a /\ R a b.
Proof. intro F. revert i. induction F; intros [|i]; cbn; try discriminate; eauto. intro E. injection E as <-. eauto. Qed.

Lemma mget_In {V} (m : list (N * V)) x v : mget m x = Some v -> In x (map fst m).
Proof.
  induction m as [|[y w] m IH]; cbn; [discriminate|]. destruct (N.eqb_spec x y) as [->|]; auto.
Qed.
Lemma mget_In2 {V} (m : list (N * V)) x v : mget m x = Some v -> In (x, v) m.
Proof.
  induction m as [|[y w] m IH]; cbn; [discriminate|]. destruct (N.eqb_spec x y) as [->|]; auto. intro E. injection E as ->. now left.
Qed.

Lemma fillRoots_other xs : forall rs new x, ~ In x xs -> mget (fillRoots rs xs new) x = mget rs x.
Proof.
  induction xs as [|y xs IH]; intros rs new x N0; [reflexivity|]. destruct new as [|r new]; [reflexivity|]. cbn [fillRoots].
  rewrite IH by (intro; apply N0; now right). rewrite mget_mput. destruct (N.eqb_spec x y) as [->|]; [exfalso; apply N0; now left|reflexivity].
Qed.

Section Sound.
Variable f : bytes -> bytes.
Variable T : list bytes.
Variable hs : N.
Hypothesis Hf : forall x, lenN (f x) = hs.
Hypothesis Hhs : 0 < hs.
Local Notation H := (restrict f T).
Local Notation nhs := (N.to_nat hs).
Variable vrf : bytes -> bytes * bytes.
Variable l : bytes.

(** The log. *)
Variable es : list logEntry.
Variable leaves : list bytes.
Hypothesis Hes : Forall2 (fun e h => logEntryHash H e = Ok h) es leaves.
Hypothesis Hts : Forall (fun e => le_ts e < two64) es.
Local Notation n := (lenN es).

Lemma leaf_sizes : Forall (fun e : bytes => lenN e = hs) leaves.
Proof.
  clear Hts. induction Hes as [|e h es0 ls0 E F IH]; [constructor|]. constructor; [|exact (IH F)].
  unfold logEntryHash in E. apply bind_ok in E. destruct E as (raw & _ & E). unfold restrict in E. destruct (existsb _ T); [|discriminate]. injection E as <-. apply Hf.
Qed.
Lemma leaves_len : lenN leaves = n.
Proof. unfold lenN. f_equal. clear Hts. induction Hes as [|e h es0 ls0 E F IH]; [reflexivity|]. cbn. f_equal. exact (IH F). Qed.

Lemma logEntryHash_inj e e' h : le_ts e < two64 -> le_ts e' < two64 -> logEntryHash H e = Ok h -> logEntryHash H e' = Ok h -> e = e' \/ collisionIn f T.
Proof.
  unfold logEntryHash. intros O O' E E'. apply bind_ok in E. destruct E as (raw & R & E). apply bind_ok in E'. destruct E' as (raw' & R' & E').
  unfold restrict in E, E'. destruct (existsb (bytes_eqb raw) T) eqn:I1; [|discriminate]. destruct (existsb (bytes_eqb raw') T) eqn:I2; [|discriminate].
  injection E as <-. injection E' as E'. apply existsb_exists in I1. destruct I1 as (x & I1 & Q1). apply bytes_eqb_eq in Q1. subst x.
  apply existsb_exists in I2. destruct I2 as (x & I2 & Q2). apply bytes_eqb_eq in Q2. subst x.
  destruct (bytes_eqb raw raw') eqn:Q.
  - apply bytes_eqb_eq in Q. subst raw'. left. eapply logEntry_inj; eassumption.
  - right. exists raw, raw'. repeat split; auto. intros ->. assert (bytes_eqb raw' raw' = true) by now apply bytes_eqb_eq. congruence.
Qed.

(** ** The prefix tree roots used are those in the log *)

Definition rootsOf (d : dataProvider received) : Prop := forall x root, mget (d_roots d) x = Some root -> exists e, nth_error es (N.to_nat x) = Some e /\ le_root e = root.

Lemma finish_roots d nP m pr r :
  dpFinish H hs d n nP m = Ok pr -> logRoot H hs n (pr_subtrees pr) = Ok r -> Mth H leaves r ->
  match m with Some k => k <= n | None => True end -> rootsTimed d -> (forall x t, mget (d_ts d) x = Some t -> t < two64) ->
  (forall x e, In (x, e) (d_retained d) -> nth_error es (N.to_nat x) = Some e /\ mget (d_roots d) x = Some (le_root e)) ->
  (rootsOf d /\ exists front, frontier n = Ok front /\ forall y, In y front -> mget (d_ts d) y <> None) \/ collisionIn f T.
Proof.
  intros E Er Em Hm Td Tt Rt. unfold dpFinish in E. destruct (inspectedLeaves (receivedHandle H hs) d) as [[positions|e|e|] d1] eqn:Ei; try discriminate.
  unfold inspectedLeaves in Ei. set (lv := nsort _) in Ei. set (em := filter _ lv) in Ei. destruct (hRoots (receivedHandle H hs) (d_handle d) em) as [[roots|e|e|] h]; try discriminate.
  destruct (negb _); [discriminate|]. injection Ei as <- <-.
  apply bind_ok in E. destruct E as (values & Ev & E). apply bind_ok in E. destruct E as (proof & Ep & E). apply bind_ok in E. destruct E as ([fs ad] & Eb & E).
  apply bind_ok in E. destruct E as (front & Ef & E). apply bind_ok in E. destruct E as (ents & Een & E). injection E as <-. cbn [pr_subtrees] in Er.
  assert (Hm' : match option_map (fun k => (k, d_subtrees (withRoots (withHandle d h) (fillRoots (d_roots (withHandle d h)) em roots)))) m with Some (m0, _) => m0 <= n | None => True end).
  { destruct m; cbn; auto. }
  destruct (C06_inclusion_sound f T hs _ _ n nP values proof fs ad leaves r Hf Hhs Hm' leaves_len leaf_sizes Eb Er Em) as [(F & _)|C]; [|auto].
  apply mapM_inv in Ev. cbn [withRoots withHandle d_ts d_roots] in Ev, Een.
  assert (Fr : forall y, In y front -> mget (d_ts d) y <> None).
  { apply mapM_inv in Een. intros y Hy. destruct (Forall2_in_l _ _ _ _ Een Hy) as (b & Eb'). destruct (mget (d_ts d) y); [discriminate|discriminate Eb']. }
  destruct (restrict_collision f T) as [CF|C]; [|auto]. left. split; [|exists front; auto].
  intros x root Hx. destruct (mhas (d_retained d) x) eqn:Mr.
  - unfold mhas in Mr. destruct (mget (d_retained d) x) as [e|] eqn:Me; [|discriminate]. apply mget_In2 in Me. destruct (Rt x e Me) as [A B]. exists e. split; [exact A|congruence].
  - assert (Ix : In x lv).
    { apply nsort_in. apply filter_In. split; [|now rewrite Mr]. destruct (mget (d_ts d) x) as [t|] eqn:Et; [eapply mget_In; exact Et|]. exfalso. exact (Td x root Hx Et). }
    assert (K : exists w, (let* ts := getOr "unreachable" (mget (d_ts d) x) in let* root := getOr "unreachable" (mget (fillRoots (d_roots d) em roots) x) in logEntryHash H {| le_ts := ts; le_root := root |}) = Ok w /\
                nth_error leaves (N.to_nat x) = Some w).
    { exact (Forall2_both _ _ _ _ x Ev F Ix). }
    destruct K as (w & K & Kw). destruct (mget (d_ts d) x) as [t|] eqn:Et; [|discriminate K]. cbn [getOr bind] in K.
    rewrite fillRoots_other in K.
    2:{ unfold em. intro I. apply filter_In in I. destruct I as [_ I]. unfold mhas in I. rewrite Hx in I. discriminate. }
    rewrite Hx in K. cbn [getOr bind] in K. destruct (Forall2_nth _ _ _ _ _ Hes Kw) as (e & Ee & He).
    assert (Te : le_ts e < two64). { apply nth_error_In in Ee. rewrite Forall_forall in Hts. now apply Hts. }
    destruct (logEntryHash_inj {| le_ts := t; le_root := root |} e w (Tt _ _ Et) Te K He) as [Q|(a & b & A1 & A2 & A3 & A4)].
    + exists e. split; [exact Ee|]. now rewrite <- Q.
    + exfalso. apply A3. apply (CF a b (f a)); unfold restrict.
      * replace (existsb (bytes_eqb a) T) with true; [reflexivity|]. symmetry. apply existsb_exists. exists a. split; [exact A1|now apply bytes_eqb_eq].
      * replace (existsb (bytes_eqb b) T) with true; [now rewrite A4|]. symmetry. apply existsb_exists. exists b. split; [exact A2|now apply bytes_eqb_eq].
Qed.

(** ** Facts are true *)

Variable labs : list (list pubVersion).
Hypothesis Hlabs : forall x e vs, nth_error es x = Some e -> nth_error labs x = Some vs -> holdsVersions H nhs vrf l e vs.
Hypothesis Hlen : List.length labs = List.length es.

Lemma fact_true pfs vm (cl : N -> bytes -> Prop) d x v b : v < 2 ^ 32 -> Forall (okPrefixProof nhs) pfs ->
  (forall p v c d w com, In p pfs -> In (NonLeaf v c d) (p_results p) -> cl w com -> v = keyOf vrf l w -> c = com) ->
  (b = false -> forall p v' c d, In p pfs -> In (NonLeaf v' c d) (p_results p) -> v' <> keyOf vrf l v) ->
  (forall w key o, mget vm w = Some (key, o) -> key = keyOf vrf l w /\ forall com, o = Some com -> cl w com) -> rootsOf d ->
  fact H hs pfs vm (d_roots d) x v b ->
  (exists vs, nth_error labs (N.to_nat x) = Some vs /\
    if b then exists p com key, nth_error vs (N.to_nat v) = Some p /\ labelCommitment H (pv_opening p) l v (pv_value p) = Ok com /\ mget vm v = Some (key, Some com)
    else nth_error vs (N.to_nat v) = None) \/ broken f nhs T.
Proof.
  intros Hv Hok Hal Hal2 Hk Hr (root & ents & pf & i & key & o & r & A1 & A2 & A3 & A4 & A5 & A6 & A7 & A8 & A9).
  destruct (Hr x root A1) as (e & Ee & Re).
  destruct (nth_error labs (N.to_nat x)) as [vs|] eqn:Ev.
  2:{ exfalso. apply nth_error_None in Ev. assert (nth_error es (N.to_nat x) <> None) by congruence. apply nth_error_Some in H. lia. }
  destruct (Hlabs _ _ _ Ee Ev) as (t & C1 & C2 & C3). rewrite Re in C2.
  assert (W : wfProof nhs pf).
  { rewrite Forall_forall in Hok. destruct (Hok pf A2) as [O1 O2]. split; [exact O2|]. intros v0 c0 d0 I. rewrite Forall_forall in O1. destruct (O1 _ I) as [_ O]. exact O. }
  assert (NA : agreeing ents (p_results pf)).
  { intros v0 c0 d0 en r0 I I' R0 <-. destruct (A4 en r0 I') as (w & ow & Ew & Es & Eo). destruct (Hk _ _ _ Ew) as [K1 K2].
    destruct ow as [cm|]; [|destruct (Eo R0); reflexivity]. rewrite Es. symmetry. eapply Hal; eauto. }
  assert (Hf' : forall x, List.length (f x) = nhs). { intro y. pose proof (Hf y). unfold lenN in *. lia. }
  destruct (verify_sound_weak f nhs T ents pf t root Hf' C1 W NA C2 A3) as [Q2|B]; [|auto]. left. exists vs. split; [reflexivity|].
  assert (I : In ((key, match o with Some c => c | None => [] end), r) (combine ents (p_results pf))).
  { clear -A6 A7. revert i A6 A7. generalize (p_results pf). induction ents as [|a ents IH]; intros rs [|i] E1 E2; try discriminate; destruct rs as [|r0 rs]; try discriminate.
    - cbn in *. injection E1 as ->. injection E2 as ->. now left.
    - right. eapply IH; eassumption. }
  specialize (Q2 _ _ I). cbn [fst snd] in Q2. rewrite A8 in Q2. destruct (Hk _ _ _ A5) as [Ek _].
  assert (Own : forall v0 c0 d0, r = NonLeaf v0 c0 d0 -> v0 <> key).
  { intros v0 c0 d0 ->. rewrite Ek. apply nth_error_In in A7. eapply Hal2; eauto. }
  specialize (Q2 Own). rewrite Ek in Q2. specialize (C3 v Hv).
  destruct b.
  - destruct o as [com|]; [|exfalso; now apply A9]. destruct (nth_error vs (N.to_nat v)) as [p|]; [|congruence]. destruct C3 as (com' & C3 & C4). rewrite C4 in Q2. injection Q2 as ->.
    exists p, com, key. auto.
  - destruct (nth_error vs (N.to_nat v)) as [p|]; [|reflexivity]. destruct C3 as (com' & C3 & C4). congruence.
Qed.
End Sound.
