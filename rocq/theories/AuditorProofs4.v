(** Proofs about the auditor: histories. *)
From Verif Require Import Base BaseProofs LogMathModel LogMathSpec LogMathProofs LogMathProofs2 LogTreeModel LogTreeSpec LogTreeProofs LogTreeProofs3 PrefixModel PrefixSpec
  CodecModel CodecSpec CodecProofs CodecProofs2 TransMathModel TransMathSpec TransMathProofs2 AlgModel AlgSpec AlgProofs AlgProofs2 HandleModel MutateProofs
  AuditorModel AuditorSpec AuditorProofs AuditorProofs2 AuditorProofs3.
Open Scope N_scope.

Lemma lenN_snoc {A} (l : list A) x : lenN (l ++ [x]) = lenN l + 1.
Proof. unfold lenN. rewrite app_length. cbn. lia. Qed.

Section Auditor.
Variable f : bytes -> bytes.
Variable hs : N.
Hypothesis Hf : forall x, lenN (f x) = hs.
Hypothesis Hhs : 0 < hs.
Variable c : pubConfig.
Variable sign : bytes -> res bytes.
Variable key : bytes.

Notation H := (full f).
Notation follows := (follows H hs).
Notation summarizes := (summarizes H).
Notation audited := (audited H hs c sign key).
Notation inv := (inv f hs c).
Notation zero b := {| le_ts := 0; le_root := b |}.

(** What an accepted update satisfies. *)
Definition removable (us : list auditorUpdate) (st : option auditorState) (u : auditorUpdate) : Prop :=
  au_removed u = [] \/ exists x, precedingDistinguished c us (au_ts u) x /\ (forall y, precedingDistinguished c us (au_ts u) y -> y <= x) /\
    forall r, In r (au_removed u) -> exists s, st = Some s /\ forall p, In (p, fst r) (as_inserted s) -> p <= x.

Record accepts (us : list auditorUpdate) (st : option auditorState) (u : auditorUpdate) (new : bytes) : Prop := {
  ac_late : late st (au_ts u);
  ac_added : sortedEntries (au_added u) = true;
  ac_removed : sortedEntries (au_removed u) = true;
  ac_count : List.length (p_results (au_proof u)) = (List.length (au_added u) + List.length (au_removed u))%nat;
  ac_absent : forall e r, In (e, r) (combine (au_added u) (p_results (au_proof u))) -> rincl r = true -> In (fst e) (map fst (au_removed u));
  ac_present : forall r, In r (skipn (List.length (au_added u)) (p_results (au_proof u))) -> rincl r = true;
  ac_removable : removable us st u;
  ac_before : exists old, EvaluateBeforeAfter H (N.to_nat hs) (au_added u) (au_removed u) (au_proof u) = Ok (old, new) /\
    match st with Some s => old = as_prefix s | None => True end }.

Lemma retains_sorted us L s : retains hs c us L s -> sortedIns (as_inserted s).
Proof. intros (prev & u & r & E & S & G & -> & _). apply filter_sortedIns. now apply sortedEntries_ins. Qed.

Lemma anyM_spec {A} (g : A -> res bool) (P : A -> Prop) l : (forall a, In a l -> exists b, g a = Ok b /\ (b = true <-> P a)) ->
  exists b, anyM g l = Ok b /\ (b = true <-> exists a, In a l /\ P a).
Proof.
  induction l as [|a l IH]; intro Hg; cbn [anyM].
  - exists false. split; [reflexivity|]. split; [discriminate|]. intros (a & [] & _).
  - destruct (Hg a (or_introl eq_refl)) as (b & -> & Eb). cbn [bind]. destruct b.
    + exists true. split; [reflexivity|]. split; [|reflexivity]. intros _. exists a. split; [now left|now apply Eb].
    + destruct IH as (b' & -> & Eb'); [intros; apply Hg; now right|]. exists b'. split; [reflexivity|]. rewrite Eb'. split.
      * intros (x & Ix & Px). exists x. split; [now right|exact Px].
      * intros (x & [<-|Ix] & Px); [apply Eb in Px; discriminate|]. eauto.
Qed.

Lemma recent_spec us st u o : inv us st -> greatestOf (precedingDistinguished c us (au_ts u)) o ->
  exists b, match o, au_removed u with
            | _, [] => Ok false
            | None, _ => Ok true
            | Some x, rem => anyM (fun r => addedSince st x (fst r)) rem
            end = Ok b /\ (b = false <-> removable us st u).
Proof.
  intros (_ & _ & I) G. destruct (au_removed u) as [|r0 rem] eqn:Er.
  - exists false. split; [destruct o; reflexivity|]. split; [intros _; now left|reflexivity].
  - destruct o as [x|].
    + cbn in G. destruct st as [s|].
      * destruct I as (b & L & Nu & Fo & Su & Re). pose proof (retains_sorted _ _ _ Re) as So.
        destruct (anyM_spec (fun r : bytes * bytes => addedSince (Some s) x (fst r)) (fun r => exists p, In (p, fst r) (as_inserted s) /\ x < p) (r0 :: rem)) as (b' & -> & Eb).
        { intros a _. destruct (addedSince_spec s x (fst a) So) as (b' & E & Q). eauto. }
        exists b'. split; [reflexivity|]. split.
        -- intros ->. right. exists x. split; [apply G|]. split; [apply G|]. intros r Ir. exists s. split; [reflexivity|]. intros p Ip. destruct (N.le_gt_cases p x) as [Q|Q]; [exact Q|].
           exfalso. rewrite Er in Ir. assert (false = true); [|discriminate]. apply Eb. exists r. split; [exact Ir|]. exists p. split; [exact Ip|lia].
        -- intros [Q|(y & P1 & P2 & P3)]; [congruence|]. destruct b'; [|reflexivity]. exfalso. destruct (proj1 Eb eq_refl) as (r & Ir & p & Ip & Lt).
           rewrite Er in P3. destruct (P3 r Ir) as (s' & Es & P4). injection Es as <-. specialize (P4 p Ip). pose proof (proj2 G y P1). lia.
      * cbn [anyM addedSince bind]. exists true. split; [reflexivity|]. split; [discriminate|]. intros [Q|(y & P1 & P2 & P3)]; [congruence|].
        rewrite Er in P3. destruct (P3 r0 (or_introl eq_refl)) as (s & Es & _). discriminate.
    + exists true. split; [reflexivity|]. split; [discriminate|]. intros [Q|(y & P1 & _)]; [congruence|]. exfalso. exact (G y P1).
Qed.

Lemma combine_In_nth {A B} (l : list A) (l' : list B) P : existsb P (combine l l') = false <-> forall e r, In (e, r) (combine l l') -> P (e, r) = false.
Proof.
  split.
  - intros E e r I. destruct (P (e, r)) eqn:Q; [|reflexivity]. assert (existsb P (combine l l') = true) by (apply existsb_exists; eauto). congruence.
  - intro G. destruct (existsb P (combine l l')) eqn:Q; [|reflexivity]. apply existsb_exists in Q. destruct Q as ([e r] & I & T). rewrite (G e r I) in T. discriminate.
Qed.

(** An update is accepted exactly if it satisfies the conditions, and otherwise it is refused or the proof cannot be evaluated. *)
Lemma process_spec us st u : inv us st -> lenN us + 1 < 2 ^ 63 -> okUpdate hs u ->
  (forall new, accepts us st u new -> exists s', processUpdate H hs c st u = Ok s' /\ inv (us ++ [u]) (Some s') /\ as_sig s' = None /\ as_prefix s' = new /\ as_ts s' = au_ts u) /\
  (forall s', processUpdate H hs c st u = Ok s' -> exists new, accepts us st u new) /\
  (~ removable us st u -> exists m, processUpdate H hs c st u = Fail m).
Proof.
  intros I Hl Ou. unfold processUpdate.
  assert (EL : (match st with Some s => au_ts u <? as_ts s | None => false end) = true <-> ~ late st (au_ts u)).
  { destruct st as [s|]; cbn; [rewrite N.ltb_lt; lia|]. split; [discriminate|tauto]. }
  destruct (match st with Some s => au_ts u <? as_ts s | None => false end) eqn:C1.
  { split; [|split]; [intros new A; exfalso; apply (proj1 EL eq_refl); apply A|discriminate|eauto]. }
  assert (La : late st (au_ts u)).
  { destruct st as [s|]; cbn in *; [apply N.ltb_ge in C1; exact C1|exact Coq.Init.Logic.I]. }
  destruct (sortedEntries (au_added u)) eqn:C2; cbn [negb]; [|split; [|split]; [intros new A; destruct A; congruence|discriminate|eauto]].
  destruct (sortedEntries (au_removed u)) eqn:C3; cbn [negb]; [|split; [|split]; [intros new A; destruct A; congruence|discriminate|eauto]].
  destruct (Nat.eqb_spec (List.length (p_results (au_proof u))) (List.length (au_added u) + List.length (au_removed u))) as [C4|C4]; cbn [negb];
    [|split; [|split]; [intros new A; destruct A; congruence|discriminate|eauto]].
  destruct (existsb (fun er => rincl (snd er) && _) _) eqn:C5.
  { split; [|split]; [|discriminate|eauto]. intros new A. exfalso. apply existsb_exists in C5. destruct C5 as ([e r] & Ir & T). cbn in T. apply andb_true_iff in T. destruct T as [T1 T2].
    pose proof (ac_absent _ _ _ _ A e r Ir T1) as J. apply in_map_iff in J. destruct J as (r' & E' & I').
    assert (X : existsb (fun r0 => bytes_eqb (fst e) (fst r0)) (au_removed u) = true) by (apply existsb_exists; exists r'; split; [exact I'|apply bytes_eqb_eq; congruence]).
    rewrite X in T2. discriminate. }
  assert (P5 : forall e r, In (e, r) (combine (au_added u) (p_results (au_proof u))) -> rincl r = true -> In (fst e) (map fst (au_removed u))).
  { intros e r Ir T. apply (proj1 (combine_In_nth _ _ _)) with (e := e) (r := r) in C5; [|exact Ir]. cbn in C5. rewrite T in C5. cbn in C5. apply negb_false_iff in C5.
    apply existsb_exists in C5. destruct C5 as (r' & I' & E'). apply bytes_eqb_eq in E'. rewrite E'. now apply in_map. }
  destruct (existsb (fun r => negb (rincl r)) _) eqn:C6.
  { split; [|split]; [|discriminate|eauto]. intros new A. exfalso. apply existsb_exists in C6. destruct C6 as (r & Ir & T). rewrite (ac_present _ _ _ _ A r Ir) in T. discriminate. }
  assert (P6 : forall r, In r (skipn (List.length (au_added u)) (p_results (au_proof u))) -> rincl r = true).
  { intros r Ir. destruct (rincl r) eqn:T; [reflexivity|]. assert (existsb (fun r => negb (rincl r)) (skipn (List.length (au_added u)) (p_results (au_proof u))) = true); [|congruence].
    apply existsb_exists. exists r. split; [exact Ir|]. rewrite T. reflexivity. }
  clear C5 C6.
  destruct (previous_ok f hs Hf Hhs c sign key us st (au_ts u) I Hl (proj1 Ou) La) as (o & d & xs & -> & G & K & Nd). cbn [bind].
  destruct (recent_spec us st u o I G) as (b & -> & Eb). cbn [bind]. destruct b.
  { split; [|split]; [|discriminate|eauto]. intros new A. exfalso. assert (true = false); [|discriminate]. apply Eb. apply A. }
  assert (Re : removable us st u) by (now apply Eb).
  destruct (EvaluateBeforeAfter H (N.to_nat hs) (au_added u) (au_removed u) (au_proof u)) as [[old new]|m|m|] eqn:Ev.
  2,3,4: split; [|split]; [intros new A; exfalso; destruct (ac_before _ _ _ _ A) as (old & E & _); congruence|discriminate|tauto].
  cbn [bind].
  assert (EM : (match st with Some s => negb (bytes_eqb old (as_prefix s)) | None => false end) = false <-> match st with Some s => old = as_prefix s | None => True end).
  { destruct st as [s|]; [|tauto]. rewrite negb_false_iff, bytes_eqb_eq. tauto. }
  destruct (match st with Some s => negb (bytes_eqb old (as_prefix s)) | None => false end) eqn:C7.
  { split; [|split]; [|discriminate|tauto]. intros new' A. exfalso. destruct (ac_before _ _ _ _ A) as (old' & E & Q). rewrite Ev in E. injection E as <- <-. assert (true = false) by (now apply EM). discriminate. }
  assert (Eo : match st with Some s => old = as_prefix s | None => True end) by (now apply EM).
  destruct (update_ok f hs Hf Hhs c sign key us st u d xs old new I Hl Ou La C2 Ev Eo K Nd) as (s' & -> & I' & S1 & S2 & S3).
  split; [|split].
  - intros new' A. destruct (ac_before _ _ _ _ A) as (old' & E & _). rewrite Ev in E. injection E as <- <-. exists s'. auto.
  - intros s'' _. exists new. constructor; auto. exists old. split; [exact Ev|exact Eo].
  - tauto.
Qed.

(** ** Storing and loading the state *)

Lemma mapM_pure {A B} (g : A -> B) l : mapM (fun x => Ok (g x)) l = Ok (map g l).
Proof. induction l as [|a l IH]; [reflexivity|]. cbn [mapM bind]. rewrite IH. reflexivity. Qed.

Lemma ok_inj {A} (a b : A) : Ok a = Ok b -> a = b.
Proof. congruence. Qed.

Lemma codec_inserted hsn : codec (fun e : N * bytes => u64ok (fst e) /\ List.length (snd e) = hsn) (fun e => Ok (writeNum 8 (fst e) ++ snd e))
  (fun b => let* (pos, b1) := readNum 8 b in let* (v, b2) := readFull hsn b1 in Ok ((pos, v), b2)).
Proof.
  split; [|split].
  - intros [p v] raw rest [A B] E. apply ok_inj in E. subst raw. cbn [fst snd] in *. rewrite <- app_assoc.
    rewrite (codec_rt codec_u64 p (writeNum 8 p) (v ++ rest) A eq_refl). cbn [bind]. rewrite (codec_rt (codec_full hsn) v v rest B eq_refl). reflexivity.
  - intros raw [p v] rest E. destruct (readNum 8 raw) as [[p' b1]| | |] eqn:E1; try discriminate. cbn [bind] in E.
    destruct (readFull hsn b1) as [[v' b2]| | |] eqn:E2; try discriminate. cbn [bind] in E. apply ok_inj in E. apply pair_equal_spec in E. destruct E as [E ->]. apply pair_equal_spec in E. destruct E as [-> ->].
    destruct (codec_inv codec_u64 _ _ _ E1) as [O1 (pre1 & W1 & ->)]. destruct (codec_inv (codec_full hsn) _ _ _ E2) as [O2 (pre2 & W2 & ->)].
    apply ok_inj in W1. apply ok_inj in W2. subst pre1 pre2. split; [split; assumption|]. eexists. split; [reflexivity|]. cbn [fst snd]. now rewrite app_assoc.
  - intro raw. apply safe_bind; [apply (codec_safe codec_u64)|]. intros [p b1] _. apply safe_bind; [apply (codec_safe (codec_full hsn))|]. intros [v b2] _. apply safe_ok.
Qed.

Record wfState (s : auditorState) : Prop := {
  ws_ts : as_ts s < two64;
  ws_size : 1 <= as_size s < 2 ^ 63;
  ws_count : List.length (as_subtrees s) = popcount (as_size s);
  ws_subtrees : Forall (fun e : bytes => List.length e = N.to_nat hs) (as_subtrees s);
  ws_front : exists front, SFront 0 (as_size s) front /\ List.length (as_timestamps s) = List.length front;
  ws_stamps : Forall u64ok (as_timestamps s);
  ws_prefix : List.length (as_prefix s) = N.to_nat hs;
  ws_inserted : Forall (fun e : N * bytes => u64ok (fst e) /\ List.length (snd e) = N.to_nat hs) (as_inserted s) }.

Lemma onesCount_popcount n : onesCount n = popcount n.
Proof. reflexivity. Qed.

Lemma state_roundtrip s raw : wfState s -> as_sig s <> None -> auditorStateMarshal s = Ok raw -> newAuditorState (N.to_nat hs) raw = Ok (s, []).
Proof.
  intros W Sg E. destruct s as [ts size sg sub stamps pre ins]. destruct W as [W1 W2 W3 W4 W5 W6 W7 W8]. cbn [as_ts as_size as_sig as_subtrees as_timestamps as_prefix as_inserted] in *.
  destruct sg as [sg|]; [|congruence]. unfold auditorStateMarshal in E. cbn [as_ts as_size as_sig as_subtrees as_timestamps as_prefix as_inserted stateHead sigBytes] in E.
  destruct (auditorTreeHeadMarshal _) as [h| | |] eqn:Eh; try discriminate. cbn [bind] in E. destruct (N.leb_spec 65536 (lenN ins)) as [Q|Q]; [discriminate|].
  apply ok_inj in E. subst raw. unfold newAuditorState.
  assert (Oh : okAuditorTreeHead {| ath_ts := ts; ath_size := size; ath_sig := sg |}).
  { unfold okAuditorTreeHead. cbn. split; [exact W1|]. unfold u64ok, two64. change (2 ^ 63) with 9223372036854775808 in W2. change (2 ^ 64) with 18446744073709551616. lia. }
  rewrite (codec_rt codec_auditorTreeHead _ _ _ Oh Eh). cbn [bind ath_size ath_ts ath_sig].
  destruct (codec_many _ _ _ (codec_full (N.to_nat hs)) (onesCount size)) as [RT _].
  rewrite (RT sub (List.concat sub)); [|split; [exact W4|rewrite onesCount_popcount; exact W3]|rewrite (mapM_pure (fun e => e)), map_id; reflexivity].
  cbn [bind]. destruct W5 as (front & Sf & El). destruct (c10_frontier size) as (fr & Ef & Sf').
  { change (2 ^ 63) with 9223372036854775808 in W2. change (2 ^ 64) with 18446744073709551616. lia. }
  rewrite (SFront_fun _ _ _ Sf' _ Sf) in Ef. rewrite Ef. cbn [bind].
  destruct (codec_many _ _ _ codec_u64 (List.length front)) as [RT2 _].
  rewrite (RT2 stamps (List.concat (map (writeNum 8) stamps))); [|split; [exact W6|exact El]|rewrite mapM_pure; reflexivity].
  cbn [bind]. rewrite (codec_rt (codec_full (N.to_nat hs)) pre pre _ W7 eq_refl). cbn [bind].
  pose proof (codec_slice 2 _ _ _ (codec_inserted (N.to_nat hs))) as RT3.
  rewrite <- (app_nil_r (writeNum 2 (lenN ins) ++ _)). rewrite (codec_rt RT3 ins _ [] W8).
  - reflexivity.
  - unfold writeSlice. destruct (N.ltb_spec (maxS 2) (lenN ins)) as [Q'|_]; [change (maxS 2) with 65535 in Q'; lia|]. rewrite (mapM_pure (fun e : N * bytes => writeNum 8 (fst e) ++ snd e)). reflexivity.
Qed.

Lemma FullValues_count leaves n fs : 1 <= n -> FullValues H leaves n fs -> List.length fs = popcount n.
Proof.
  intros Hn (parts & P & F2). rewrite <- (Parts_length 0 n parts Hn P). pose proof (LogTreeProofs.Forall2_len _ _ _ F2) as E. unfold lenN in E. lia.
Qed.

Lemma follows_sized b us L : Forall (okUpdate hs) us -> follows b us L -> Forall (fun e => List.length (le_root e) = N.to_nat hs) L.
Proof.
  intros F Fo. induction Fo as [|us L u old new Fo IH E1 E2 E3]; [constructor|]. apply Forall_app in F. destruct F as [F1 F2]. apply Forall_app. split; [auto|].
  repeat constructor. cbn [le_root]. apply Forall_inv in F2. destruct (beforeAfter_sized f (N.to_nat hs) (Hf' f hs Hf Hhs sign) _ _ _ _ _ (proj2 F2) E1). assumption.
Qed.

Lemma inv_wf us s : inv us (Some s) -> wfState s.
Proof.
  intros (F & Hl & b & L & Nu & Fo & (E1 & (e & E2 & E3 & E4) & (leaves & F2 & FV) & (front & Sf & Et)) & Re).
  pose proof (follows_len f hs b us L Fo) as EL. assert (ELn : lenN L = lenN us) by (unfold lenN; lia).
  assert (Hn : 1 <= lenN L) by (rewrite ELn; destruct us; [congruence|unfold lenN; cbn; lia]).
  assert (Sl : Forall (fun x : bytes => lenN x = hs) leaves).
  { clear - F2 Hf. induction F2 as [|x y L leaves E F2 IH]; constructor; auto. exact (entryHash_sized f hs Hf _ _ E). }
  assert (InE : In e L). { destruct (last_some f hs Hf Hhs sign key L e (zero b) E2) as [<- Nl]. eapply nth_error_In. apply (last_nth f hs Hf Hhs sign key). exact Nl. }
  assert (Ts : forall x, In x L -> le_ts x < two64).
  { intros x Ix. assert (I' : In (le_ts x) (map au_ts us)) by (rewrite <- (follows_ts f hs b us L Fo); now apply in_map).
    apply in_map_iff in I'. destruct I' as (u & <- & Iu). exact (proj1 (proj1 (Forall_forall _ _) F _ Iu)). }
  constructor.
  - rewrite E3. auto.
  - rewrite E1, ELn. rewrite ELn in Hn. lia.
  - rewrite E1. eapply FullValues_count; eauto.
  - assert (G : Forall (fun x : bytes => lenN x = hs) (as_subtrees s)).
    { assert (X : lenN leaves = lenN L) by (symmetry; exact (LogTreeProofs.Forall2_len _ _ _ F2)). exact (FullValues_sized H hs (full_sized f hs Hf) leaves (lenN L) _ Sl FV). }
    eapply Forall_impl; [|exact G]. intros x Hx. cbn beta in Hx. unfold lenN in Hx. lia.
  - exists front. rewrite E1, Et, map_length. auto.
  - rewrite Et. apply Forall_forall. intros x Ix. apply in_map_iff in Ix. destruct Ix as (y & <- & Iy). unfold tsIn, u64ok. destruct (nth_error L (N.to_nat y)) as [x|] eqn:Q; [|reflexivity].
    apply Ts. eapply nth_error_In; eauto.
  - rewrite E4. exact (proj1 (Forall_forall _ _) (follows_sized b us L F Fo) _ InE).
  - destruct Re as (prev & u & r & -> & _ & _ & Ei & Fk). rewrite Ei. apply Forall_forall. intros x Ix. apply filter_In in Ix. destruct Ix as [Ix _]. apply in_map_iff in Ix. destruct Ix as (a & <- & Ia).
    cbn. split; [|exact (proj1 (Forall_forall _ _) Fk _ Ia)]. rewrite lenN_snoc in Hl. unfold u64ok, two64. change (2 ^ 63) with 9223372036854775808 in Hl. change (2 ^ 64) with 18446744073709551616. lia.
Qed.

Lemma inv_sig us s sg : inv us (Some s) -> inv us (Some (setSig s sg)).
Proof.
  intros (F & Hl & b & L & Nu & Fo & Su & Re). split; [exact F|]. split; [exact Hl|]. exists b, L. split; [exact Nu|]. split; [exact Fo|]. split; [exact Su|exact Re].
Qed.

Definition storedInv (ps : list auditorUpdate) (raw : option bytes) : Prop :=
  match raw with None => ps = [] | Some b => exists s, newAuditorState (N.to_nat hs) b = Ok (s, []) /\ inv ps (Some s) end.

Lemma commit_cases put a r a' : Commit H hs c sign put a = (r, a') ->
  (a_stored a' = a_stored a /\ (a_state a' = a_state a \/ exists s sg, a_state a = Some s /\ a_state a' = Some (setSig s (Some sg)))) \/
  (exists s sg raw, a_state a = Some s /\ as_sig s = None /\ a_state a' = Some (setSig s (Some sg)) /\ auditorStateMarshal (setSig s (Some sg)) = Ok raw /\ a_stored a' = Some raw).
Proof.
  unfold Commit. destruct (a_state a) as [s|] eqn:Es; [|intros [= <- <-]; rewrite Es; auto].
  destruct (as_sig s) eqn:Eg; [intros [= <- <-]; rewrite Es; auto|].
  destruct (let* root := _ in _) as [sg| | |]; try (intros [= <- <-]; rewrite Es; auto).
  destruct (auditorStateMarshal (setSig s (Some sg))) as [raw| | |] eqn:Em; cbn [bind].
  - destruct put as [[]| | |]; cbn [bind]; intros [= <- <-]; cbn [a_stored a_state]; [right; eauto 10|left; eauto 8|left; eauto 8|left; eauto 8].
  - intros [= <- <-]. cbn. left; eauto 8.
  - intros [= <- <-]. cbn. left; eauto 8.
  - intros [= <- <-]. cbn. left; eauto 8.
Qed.

Lemma audited_inv us ps a : audited us ps a -> inv us (a_state a) /\ storedInv ps (a_stored a).
Proof.
  induction 1 as [a E|us ps a u a' A IH Ou Hl E|us ps a u r a' A IH E Nr|us ps a put r a' A IH E Es|us ps a put r a' A IH E Es|us ps a a' A IH E].
  - unfold NewAuditor in E. destruct (negb _); [discriminate|]. destruct (negb _); [discriminate|]. injection E as <-. cbn. split; [|reflexivity]. split; [constructor|]. split; reflexivity.
  - destruct IH as [I S]. unfold Process in E. destruct (processUpdate H hs c (a_state a) u) as [s'| | |] eqn:P; try discriminate. injection E as <-. cbn [a_state a_stored]. split; [|exact S].
    destruct (process_spec us (a_state a) u I Hl Ou) as (S1 & S2 & _). destruct (S2 _ P) as (new & Ac). destruct (S1 _ Ac) as (s'' & E' & I' & _). rewrite P in E'. injection E' as <-. exact I'.
  - unfold Process in E. destruct (processUpdate H hs c (a_state a) u); injection E as <- <-; [congruence|exact IH|exact IH|exact IH].
  - destruct IH as [I S]. apply commit_cases in E. destruct E as [[E1 [E2|(s & sg & E2 & E3)]]|(s & sg & raw & E1 & E2 & E3 & E4 & E5)].
    + rewrite E1, E2. auto.
    + rewrite E1, E3. rewrite E2 in I. split; [now apply inv_sig|exact S].
    + rewrite E3, Es. rewrite E1 in I. split; [now apply inv_sig|exact S].
  - destruct IH as [I S]. apply commit_cases in E. destruct E as [[E1 _]|(s & sg & raw & E1 & E2 & E3 & E4 & E5)]; [congruence|].
    rewrite E1 in I. apply (inv_sig _ _ (Some sg)) in I. rewrite E3, E5. split; [exact I|]. cbn. exists (setSig s (Some sg)). split; [|exact I].
    apply state_roundtrip; [exact (inv_wf _ _ I)|discriminate|exact E4].
  - destruct IH as [_ S]. unfold NewAuditor in E. destruct (negb _); [discriminate|]. destruct (negb _); [discriminate|].
    destruct (a_stored a) as [raw|] eqn:Er; [|injection E as <-; cbn in *; split; [|exact S]; split; [subst; constructor|]; split; [subst; reflexivity|exact S]].
    cbn in S. destruct S as (s & E1 & I). rewrite E1 in E. cbn [bind] in E. injection E as <-. cbn [a_state a_stored]. split; [exact I|]. cbn. eauto.
Qed.

(** ** The theorems *)

Lemma c53 a u r a' : Process H hs c a u = (r, a') -> r <> Ok tt -> a' = a.
Proof. unfold Process. destruct (processUpdate H hs c (a_state a) u); intros [= <- <-]; congruence. Qed.

Lemma c54 us ps a : audited us ps a -> exists b L, follows b us L /\
  match a_state a with None => us = [] | Some s => summarizes s L end /\
  forall i j, i <= j < lenN us -> tsIn L i <= tsIn L j.
Proof.
  intro A. apply audited_inv in A. destruct A as [(_ & _ & I) _]. destruct (a_state a) as [s|].
  - destruct I as (b & L & Nu & Fo & Su & Re). exists b, L. split; [exact Fo|]. split; [exact Su|]. intros i j Hij. unfold tsIn. pose proof (follows_len f hs b us L Fo) as EL.
    destruct (nth_error L (N.to_nat i)) as [e|] eqn:Ee; [|lia]. destruct (nth_error L (N.to_nat j)) as [e'|] eqn:Ee'; [|apply nth_error_None in Ee'; unfold lenN in Hij; lia].
    eapply (follows_mono f hs Hf Hhs sign key b us L Fo); [|exact Ee|exact Ee']. lia.
  - subst us. exists [], []. split; [constructor|]. split; [reflexivity|]. intros i j Hij. cbn in Hij. lia.
Qed.

Lemma c54_core us a put th a' : inv us (a_state a) -> Commit H hs c sign put a = (Ok th, a') -> (forall s, a_state a = Some s -> as_sig s = None) ->
  exists b L leaves root tbs, follows b us L /\ Forall2 (fun e h => logEntryHash H e = Ok h) L leaves /\ Mth H leaves root /\
    auditorTreeHeadTBS c (ath_ts th) (lenN us) root = Ok tbs /\ sign tbs = Ok (ath_sig th) /\ ath_size th = lenN us /\
    a_stored a' <> None /\ NewAuditor hs c key (a_stored a') = (let* _ := NewAuditor hs c key None in Ok a').
Proof.
  intros I E Hs. unfold Commit in E. destruct (a_state a) as [s|] eqn:Es; [|discriminate]. specialize (Hs s eq_refl). rewrite Hs in E.
  pose proof (inv_wf _ _ I) as W. pose proof I as (F & Hl & b & L & Nu & Fo & (E1 & (e & E2 & E3 & E4) & (leaves & F2 & FV) & Et) & Re).
  pose proof (follows_len f hs b us L Fo) as EL. assert (ELn : lenN L = lenN us) by (unfold lenN; lia).
  assert (Hn : 1 <= lenN L) by (rewrite ELn; destruct us; [congruence|unfold lenN; cbn; lia]).
  assert (X : lenN leaves = lenN L) by (symmetry; exact (LogTreeProofs.Forall2_len _ _ _ F2)).
  assert (Sl : Forall (fun x : bytes => lenN x = hs) leaves).
  { clear - F2 Hf. induction F2 as [|x y L leaves E F2 IH]; constructor; auto. exact (entryHash_sized f hs Hf _ _ E). }
  destruct (logRoot H hs (as_size s) (as_subtrees s)) as [root| | |] eqn:Er; try discriminate. cbn [bind] in E.
  destruct (auditorTreeHeadTBS c (as_ts s) (as_size s) root) as [tbs| | |] eqn:Etb; try discriminate. cbn [bind] in E.
  destruct (sign tbs) as [sg| | |] eqn:Esg; try discriminate.
  destruct (auditorStateMarshal (setSig s (Some sg))) as [raw| | |] eqn:Em; try discriminate. cbn [bind] in E.
  destruct put as [[]| | |]; try discriminate. cbn [bind] in E. injection E as <- <-.
  exists b, L, leaves, root, tbs. split; [exact Fo|]. split; [exact F2|]. split.
  { apply (logRoot_spec H hs (full_sized f hs Hf) Hhs leaves (as_subtrees s)); [rewrite X; change (2 ^ 63) with two63 in Hl; lia|exact Sl|rewrite X; exact FV|]. rewrite X, <- E1. exact Er. }
  cbn [stateHead setSig as_ts as_size as_sig sigBytes ath_ts ath_sig ath_size]. split; [rewrite <- ELn, <- E1; exact Etb|]. split; [exact Esg|]. split; [rewrite E1; exact ELn|].
  cbn [a_stored]. split; [discriminate|]. unfold NewAuditor. destruct (negb (pc_mode c =? _)); [reflexivity|]. destruct (negb _); [reflexivity|]. cbn [bind].
  pose proof (inv_sig us s (Some sg) I) as I'.
  rewrite (state_roundtrip (setSig s (Some sg)) raw (inv_wf _ _ I') ltac:(discriminate) Em). reflexivity.
Qed.

Lemma c54_signed us ps a put th a' : audited us ps a -> Commit H hs c sign put a = (Ok th, a') -> (forall s, a_state a = Some s -> as_sig s = None) ->
  exists b L leaves root tbs, follows b us L /\ Forall2 (fun e h => logEntryHash H e = Ok h) L leaves /\ Mth H leaves root /\
    auditorTreeHeadTBS c (ath_ts th) (lenN us) root = Ok tbs /\ sign tbs = Ok (ath_sig th) /\ ath_size th = lenN us /\
    a_stored a' <> None /\ NewAuditor hs c key (a_stored a') = (let* _ := NewAuditor hs c key None in Ok a').
Proof. intro A. apply audited_inv in A. destruct A as [I _]. exact (c54_core us a put th a' I). Qed.

Lemma c55_partial us ps a u k : audited us ps a -> okUpdate hs u -> lenN us + 1 < 2 ^ 63 -> In k (map fst (au_removed u)) ->
  ((forall y, ~ precedingDistinguished c us (au_ts u) y) \/
   (exists prev v, us = prev ++ [v] /\ In k (map fst (au_added v)) /\ forall y, precedingDistinguished c us (au_ts u) y -> y < lenN prev)) ->
  exists m, Process H hs c a u = (Fail m, a).
Proof.
  intros A Ou Hl Ik Hc. apply audited_inv in A. destruct A as [I _]. unfold Process.
  destruct (match a_state a with Some s => N.ltb (au_ts u) (as_ts s) | None => false end) eqn:La.
  { unfold processUpdate. rewrite La. eauto. }
  destruct (process_spec us (a_state a) u I Hl Ou) as (_ & _ & S3).
  destruct S3 as (m & ->); [|eauto]. intros [Q|(x & P1 & P2 & P3)]; [rewrite Q in Ik; destruct Ik|].
  destruct Hc as [Hc|(prev & v & E & Iv & Hy)]; [exact (Hc x P1)|]. apply in_map_iff in Ik. destruct Ik as (r & Er & Ir).
  destruct (P3 r Ir) as (s & Es & Hp). rewrite Es in *. destruct I as (F & Hl' & b & L & Nu & Fo & Su & Re).
  destruct Re as (prev' & v' & r' & E' & So & Gr & Ei & Fk). rewrite E in E'. apply app_inj_tail in E'. destruct E' as [<- <-].
  assert (Late : le_ts (List.last L (zero b)) <= au_ts u).
  { destruct Su as (_ & (e & E2 & E3 & _) & _). destruct (last_some f hs Hf Hhs sign key L e (zero b) E2) as [-> _]. rewrite <- E3. apply N.ltb_ge in La. exact La. }
  pose proof (follows_len f hs b us L Fo) as EL. assert (ELn : lenN us = lenN prev + 1) by (rewrite E; apply lenN_snoc).
  assert (Lt : lenN prev <= x); [|specialize (Hy x P1); lia].
  apply Hp. rewrite Er, Ei. apply filter_In. split.
  - apply in_map_iff in Iv. destruct Iv as (a0 & Ea & Ia). apply in_map_iff. exists a0. rewrite Ea. auto.
  - destruct r' as [r0|]; [|reflexivity]. cbn [keep fst]. apply N.ltb_lt. apply Hy. cbn in Gr. destruct Gr as [D _].
    assert (Hr0 : r0 < lenN us). { unfold distinguished in D. apply DIn_range in D; lia. }
    split; [|exact Hr0]. apply distinguished_stays with (n := lenN us); [lia| |].
    + intros i j Hij. apply (stamps_mono f hs Hf Hhs sign key b us L); [exact Fo|exact Late|lia].
    + assert (X : forall y, y < lenN us -> tsIn L y = stamps us (au_ts u) y) by (intros y Hy'; symmetry; apply (stamps_old f hs Hf Hhs sign b us L); auto).
      unfold distinguished in *. rewrite <- X by lia. eapply DIn_ext; [exact D|lia|]. intros y Hy'. apply X. lia.
Qed.

Lemma c56_partial us ps a u a' : audited us ps a -> okUpdate hs u -> lenN us + 1 < 2 ^ 63 -> Process H hs c a u = (Ok tt, a') ->
  match a_state a with
  | None => au_removed u = []
  | Some s => exists new, EvaluateBeforeAfter H (N.to_nat hs) (au_added u) (au_removed u) (au_proof u) = Ok (as_prefix s, new) /\
      exists s', a_state a' = Some s' /\ as_prefix s' = new
  end.
Proof.
  intros A Ou Hl E. apply audited_inv in A. destruct A as [I _]. unfold Process in E. destruct (processUpdate H hs c (a_state a) u) as [s'| | |] eqn:P; try discriminate. injection E as <-.
  destruct (process_spec us (a_state a) u I Hl Ou) as (S1 & S2 & _). destruct (S2 _ P) as (new & Ac). destruct (S1 _ Ac) as (s'' & E' & I' & _ & Ep & _). rewrite P in E'. injection E' as <-.
  destruct (a_state a) as [s|] eqn:Es.
  - destruct (ac_before _ _ _ _ Ac) as (old & Ev & ->). exists new. split; [exact Ev|]. cbn. eauto.
  - destruct (ac_removable _ _ _ _ Ac) as [Q|(x & _ & _ & P3)]; [exact Q|]. destruct (au_removed u) as [|r t]; [reflexivity|]. destruct (P3 r (or_introl eq_refl)) as (s & Q & _). discriminate.
Qed.

End Auditor.
