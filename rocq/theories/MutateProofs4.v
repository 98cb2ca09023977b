(** Proofs about mutations: the whole of it. *)
From Coq Require Import Permutation Sorted.
From Verif Require Import Base BaseProofs NodeMathProofs LogMathModel LogMathSpec LogTreeModel LogTreeSpec LogTreeProofs LogTreeProofs3 LogChunkModel LogChunkProofs7
  PrefixModel PrefixSpec PrefixProofs PrefixBuildProofs PrefixHistProofs PrefixStoreProofs CodecModel CodecSpec CodecProofs CodecProofs2
  TransMathSpec AlgModel AlgSpec HandleModel HandleSpec StoreModel StoreProofs CommitModel MutateModel MutateSpec MutateProofs MutateProofs2 MutateProofs3.
Open Scope N_scope.
Local Open Scope list_scope.

Lemma current_app E ep : current (E ++ [ep]) = ep_labels ep.
Proof. unfold current. rewrite map_app. apply last_last. Qed.
Lemma entriesOf_app E ep : entriesOf (E ++ [ep]) = entriesOf E ++ [ep_entry ep].
Proof. unfold entriesOf. apply map_app. Qed.
Lemma lenN_snoc {A} (l : list A) x : lenN (l ++ [x]) = lenN l + 1.
Proof. unfold lenN. rewrite app_length. cbn. lia. Qed.
Lemma nth_snoc {A} (l : list A) x i y : nth_error (l ++ [x]) i = Some y -> nth_error l i = Some y \/ i = List.length l /\ y = x.
Proof.
  intro E. destruct (Nat.lt_ge_cases i (List.length l)) as [A1|A1].
  - left. now rewrite nth_error_app1 in E.
  - right. rewrite nth_error_app2 in E by exact A1. destruct (i - List.length l)%nat as [|k] eqn:K; [|destruct k; discriminate]. cbn in E. split; [lia|congruence].
Qed.

Lemma list_eq_dec_nil {A} (l : list A) : {l = []} + {l <> []}.
Proof. destruct l; [left; reflexivity|right; discriminate]. Qed.

Section Whole.
Variable f : bytes -> bytes.
Variable hs : N.
Hypothesis Hf : forall x, lenN (f x) = hs.
Hypothesis Hhs : 0 < hs <= 32.
Variable c : pubConfig.
Variable vrf : bytes -> bytes * bytes.
Variable Ls : list bytes.
Hypothesis HV : vrfGood hs vrf Ls.
Variable sign : bytes -> res bytes.
Variable valid : bytes -> bytes -> Prop.
Hypothesis Hsign : forall tbs sig, sign tbs = Ok sig -> valid tbs sig.
Variable opening : bytes -> N -> bytes.

Lemma Hf' x : List.length (f x) = N.to_nat hs.
Proof. specialize (Hf x). unfold lenN in Hf. lia. Qed.
Lemma Hs32 : (N.to_nat hs <= 32)%nat. Proof. lia. Qed.

Lemma entry_hash e : exists h, logEntryHash (full f) e = Ok h /\ lenN h = hs.
Proof. unfold logEntryHash, logEntryMarshal, full. cbn [bind]. eexists. split; [reflexivity|apply Hf]. Qed.

Lemma leaves_len es leaves : Forall2 (fun e h => logEntryHash (full f) e = Ok h) es leaves -> List.length leaves = List.length es /\ Forall (fun h : bytes => lenN h = hs) leaves.
Proof.
  induction 1 as [|e h es leaves E F [A B]]; [split; [reflexivity|constructor]|]. split; [cbn; lia|]. constructor; [|exact B].
  destruct (entry_hash e) as (h' & E' & L). congruence.
Qed.

Lemma append_ok leaves leaf fs st : lenN leaves < 2 ^ 63 -> Forall (fun h : bytes => lenN h = hs) leaves -> lenN leaf = hs ->
  foldM (fun s e => let* (fs, st) := treeAppend (full f) hs (snd s) (fst (fst s)) e in Ok (fst (fst s) + 1, fs, st)) leaves (0, [], [])
      = Ok (lenN leaves, fs, st) ->
  exists fs' st' root, treeAppend (full f) hs st (lenN leaves) leaf = Ok (fs', st') /\
    foldM (fun s e => let* (fs, st) := treeAppend (full f) hs (snd s) (fst (fst s)) e in Ok (fst (fst s) + 1, fs, st)) (leaves ++ [leaf]) (0, [], [])
      = Ok (lenN (leaves ++ [leaf]), fs', st') /\
    logRoot (full f) hs (lenN leaves + 1) fs' = Ok root /\ Mth (full f) (leaves ++ [leaf]) root.
Proof.
  intros L63 FL Hl E.
  assert (FL' : Forall (fun h : bytes => lenN h = hs) (leaves ++ [leaf])) by (apply Forall_app; split; [exact FL|constructor; [exact Hl|constructor]]).
  assert (L' : lenN (leaves ++ [leaf]) <= 2 ^ 63) by (rewrite lenN_snoc; lia).
  destruct (c08_all f hs Hf (proj1 Hhs) (leaves ++ [leaf]) L' FL') as (fs' & st' & E' & FV & _).
  assert (NE : leaves ++ [leaf] <> []) by (intro Q; apply app_eq_nil in Q; destruct Q; discriminate).
  specialize (FV NE). pose proof E' as E2. rewrite foldM_app, E in E2. cbn [bind foldM fst snd] in E2.
  destruct (treeAppend (full f) hs st (lenN leaves) leaf) as [[fs2 st2]|?|?|] eqn:TA; cbn [bind] in E2; try discriminate. injection E2 as E21 <- <-.
  destruct (Mth_total (full f) ltac:(intro x; unfold full; eauto) _ NE) as [root Hroot].
  exists fs2, st2, root. split; [reflexivity|]. split; [exact E'|]. split; [|exact Hroot].
  rewrite <- lenN_snoc with (x := leaf). apply (logRoot_spec (full f) hs); try assumption.
  - intros x h. unfold full. intros [= <-]. apply Hf.
  - lia.
  - rewrite lenN_snoc in *. change LogMathProofs.two63 with (2 ^ 63). lia.
Qed.

Section Step.
Variable s : contents.
Variable E : list epoch.
Hypothesis HD : describes f hs vrf Ls s E.
Variable order : list bytes.
Variable now : N.
Hypothesis Hnow : now < two64.
Variable add : list labelValue.
Variable remove : list bytes.
Hypothesis HO : listsLabels order add remove.
Hypothesis HLs : forall l, In l order -> In l Ls.
Hypothesis Hsize : lenN E + 1 < 2 ^ 63.
Let n := lenN E.
Let cur := current E.
Let P := publish opening n add remove cur.
Hypothesis Hcount : forall l, In l order -> lenN (P l) < 2 ^ 32.
Hypothesis Hbatch : lenN add + lenN (flat_map (fun l => if existsb (bytes_eqb l) remove then cur l else []) order) < 2 ^ 32.
Hypothesis Heff : effective cur add remove.

Lemma counts l : In l order -> lenN (cur l) < 2 ^ 32 /\ lenN (publish opening n add remove cur l) < 2 ^ 32.
Proof. intro I. split; [|apply Hcount; exact I]. destruct (ds_positions _ _ _ _ _ _ HD l (HLs l I)) as (_ & _ & A). exact A. Qed.

Lemma prefix_now : exists past m h, hist f (N.to_nat hs) (x_prefix s) (past ++ [(m, h)]) /\ lenN past = n /\ mapFor f vrf Ls m cur /\
  (forall i ep, nth_error E i = Some ep -> exists m', nth_error (past ++ [(m, h)]) (S i) = Some (m', le_root (ep_entry ep)) /\ mapFor f vrf Ls m' (ep_labels ep)).
Proof.
  destruct (ds_prefix _ _ _ _ _ _ HD) as (vs & Hh & Lv & Hv).
  destruct (exists_last (l := vs)) as (past & [m h] & Ev); [intros ->; discriminate|]. subst vs.
  assert (Lp : List.length past = List.length E) by (rewrite app_length in Lv; cbn in Lv; lia).
  exists past, m, h. split; [exact Hh|]. split; [unfold n, lenN; lia|]. split; [|exact Hv].
  destruct (list_eq_dec_nil E) as [E0|NE].
  - assert (past = []) by (destruct past; [reflexivity|]; rewrite E0 in Lp; discriminate). rewrite H in Hh. cbn in Hh.
    assert (Em : m = emptyMap).
    { inversion Hh as [|? ? ? ? ? ? ? ? ? ? ? ? ? ? ? Q1 Q2]; [reflexivity|]. exfalso. apply (f_equal (@List.length _)) in Q2. rewrite !app_length in Q2. cbn in Q2. lia. }
    rewrite Em. intros l v Hl Hv'. unfold cur. rewrite E0. cbn. destruct (N.to_nat v); reflexivity.
  - destruct (exists_last NE) as (E' & ep & ->). unfold cur. rewrite current_app.
    destruct (Hv (List.length E') ep) as (m' & A & B); [rewrite nth_error_app2, Nat.sub_diag by lia; reflexivity|].
    rewrite app_length in Lp. cbn in Lp. rewrite nth_error_app2 in A by lia. replace (S (List.length E') - List.length past)%nat with 0%nat in A by lia.
    cbn in A. injection A as <- _. exact B.
Qed.


Let padd := ksort fst (flat_map (addedFor f vrf opening n add remove cur) order).
Let prem := ksort (fun x : bytes => x) (flat_map (removedFor vrf remove cur) order).

Lemma add1 : add64 n 1 = n + 1.
Proof. apply add64_small. unfold n, two64. change (2 ^ 64) with 18446744073709551616. change (2 ^ 63) with 9223372036854775808 in Hsize. lia. Qed.

(** What is left of a mutation once the labels have been processed; [s1] is the state then. *)
Lemma finish_ok s1 au th s' : onlyLabels order s s1 -> (forall l, In l order -> labelAt f s1 l (P l)) ->
  (forall e, nth_error (entriesOf E) (List.length E - 1) = Some e -> le_ts e <= now) ->
  (let! (prefixRoot, proof, coms) :=
    (fun s => match mutate (full f) (N.to_nat hs) (x_prefix s) n padd prem with
              | Ok (root, proof, coms, st) => (Ok (root, proof, coms), setPrefix s st)
              | Fail m => (Fail m, s) | Panic m => (Panic m, s) | Fuel => (Fuel, s)
              end) in
  let! th := issueTreeHead (full f) hs c sign n now prefixRoot in
  ret ({| au_ts := now; au_added := padd; au_removed := combine prem coms; au_proof := proof |}, th)) s1 = (Ok (au, th), s') ->
  exists root, let E' := E ++ [{| ep_entry := {| le_ts := now; le_root := root |}; ep_labels := P |}] in
    describes f hs vrf Ls s' E' /\ th_size th = lenN E' /\ signedFor f c valid E' th /\ (exists raw, treeHeadMarshal th = Ok raw /\ x_head s' = Some raw) /\
    au_ts au = now /\ au_added au = padd /\
    exists coms st, mutate (full f) (N.to_nat hs) (x_prefix s) n padd prem = Ok (root, au_proof au, coms, st) /\ au_removed au = combine prem coms.
Proof.
  intros OL LA Late R. mok R rpc s2 R1. destruct rpc as [[root proof] coms].
  assert (OLp : x_prefix s1 = x_prefix s /\ x_log s1 = x_log s /\ x_entries s1 = x_entries s) by (destruct OL as [-> _]; repeat split; reflexivity).
  destruct OLp as (OLp & OLl & OLe).
  destruct (mutate (full f) (N.to_nat hs) (x_prefix s1) n padd prem) as [[[[root' proof'] coms'] st]|?|?|] eqn:Mu; try discriminate. injection R1 as -> -> -> <-.
  rewrite OLp in Mu.
  mok R th' s3 R2. cbn [ret] in R. injection R as <- <- <-.
  unfold issueTreeHead in R2. set (e := {| le_ts := now; le_root := root |}) in *.
  mok R2 raw s4 Q1. apply liftM_ok in Q1. destruct Q1 as [Q1 ->].
  mok R2 u s4 Q2. unfold modify in Q2. injection Q2 as _ <-.
  mok R2 leaf s4 Q3. apply liftM_ok in Q3. destruct Q3 as [Q3 ->].
  destruct (ds_log _ _ _ _ _ _ HD) as (leaves & fs & FL & Fo). destruct (leaves_len _ _ FL) as [LL FS].
  assert (LE : lenN leaves = n) by (unfold n, lenN; rewrite LL; unfold entriesOf; now rewrite map_length).
  assert (Hleaf : lenN leaf = hs) by (destruct (entry_hash e) as (h' & Eh & Lh); congruence).
  destruct (append_ok leaves leaf fs (x_log s) ltac:(lia) FS Hleaf Fo) as (fs' & st' & root2 & TA & Fo' & LR & MT). rewrite LE in TA, LR.
  mok R2 fs2 s4 Q4. cbn [x_log setEntries setPrefix] in Q4. rewrite OLl, TA in Q4. injection Q4 as <- <-.
  mok R2 root3 s4 Q5. apply liftM_ok in Q5. destruct Q5 as [Q5 ->]. rewrite add1, LR in Q5. injection Q5 as <-.
  mok R2 tbs s4 Q6. apply liftM_ok in Q6. destruct Q6 as [Q6 ->]. rewrite add1 in Q6.
  mok R2 sg s4 Q7. apply liftM_ok in Q7. destruct Q7 as [Q7 ->].
  mok R2 rawHead s4 Q8. apply liftM_ok in Q8. destruct Q8 as [Q8 ->].
  mok R2 u2 s4 Q9. unfold modify in Q9. injection Q9 as _ <-. cbn [ret] in R2. injection R2 as <- <-.
  exists root. set (ep := {| ep_entry := e; ep_labels := P |}). cbv zeta.
  destruct prefix_now as (past & m & h & Hh & Lp & Hm & Hv).
  assert (BS : lenN padd + lenN prem < two32).
  { unfold two32. eapply N.le_lt_trans; [|exact Hbatch]. apply (batch_size f vrf opening n order add remove cur HO). }
  assert (Hist' : hist f (N.to_nat hs) st ((past ++ [(m, h)]) ++ [(PrefixSpec.update m padd prem, root)])).
  { eapply hist_step with (proof := proof) (coms := coms); [exact Hh| | |exact BS|rewrite Lp; exact Mu].
    - rewrite Lp. unfold n, two64. change (2 ^ 64) with 18446744073709551616. change (2 ^ 63) with 9223372036854775808 in Hsize. lia.
    - exact (effective_batch f hs Hf vrf Ls opening n order add remove cur HO HLs counts Heff). }
  assert (Hroot : List.length root = N.to_nat hs).
  { destruct (hist_trie f (N.to_nat hs) Hf' Hs32 st _ (List.length past + 1) (PrefixSpec.update m padd prem) root Hist') as (t & _ & Th).
    - rewrite nth_error_app2 by (rewrite app_length; cbn; lia). rewrite app_length. cbn [List.length]. replace (_ - _)%nat with 0%nat by lia. reflexivity.
    - eapply (PrefixStoreProofs.thash_len (full f)); [|intros; exact Logic.I|exact Th]. intros x y. unfold full. intros [= <-]. apply Hf'. }
  assert (HdE : th_size {| th_size := add64 n 1; th_sig := sg |} = lenN (E ++ [ep])) by (cbn [th_size]; rewrite add1, lenN_snoc; reflexivity).
  assert (FL' : Forall2 (fun e h => logEntryHash (full f) e = Ok h) (entriesOf (E ++ [ep])) (leaves ++ [leaf])).
  { rewrite entriesOf_app. apply Forall2_app; [exact FL|]. constructor; [exact Q3|constructor]. }
  split; [|split; [exact HdE|split; [|split; [|split; [reflexivity|split; [reflexivity|exists coms, st; split; [exact Mu|reflexivity]]]]]]].
  2: { exists (leaves ++ [leaf]), root2, tbs. split; [exact FL'|]. split; [exact MT|]. split; [rewrite lenN_snoc; exact Q6|]. cbn [th_sig]. apply Hsign. exact Q7. }
  2: { exists rawHead. split; [exact Q8|reflexivity]. }
  assert (LI : forall l, In l Ls -> labelAt f s1 l (P l)).
  { intros l Hl. destruct (in_dec bytes_eq_dec l order) as [I|Nl]; [apply LA; exact I|].
    assert (EP : P l = cur l).
    { destruct (not_mentioned opening n order add remove cur HO l Nl) as [K N0]. unfold P. rewrite publish_eq, K, N0. apply app_nil_r. }
    rewrite EP. destruct OL as [_ OL]. destruct (OL l Nl) as [Oi Ov]. split; [rewrite Oi; apply (ds_index _ _ _ _ _ _ HD l Hl)|].
    intros v Hv'. pose proof (ds_versions _ _ _ _ _ _ HD l v Hl Hv') as DV. eapply versionAt_ext; [apply Ov|]. exact DV. }
  constructor.
  - rewrite lenN_snoc. lia.
  - intros x e0 Hx. rewrite entriesOf_app in Hx. cbn [x_entries setHead setLog setEntries setPrefix]. rewrite OLe. unfold mput. cbn [mget].
    apply nth_snoc in Hx. destruct Hx as [Hx|[Hx ->]].
    + destruct (ds_entries _ _ _ _ _ _ HD x e0 Hx) as (A1 & A2 & raw0 & A3 & A4). split; [exact A1|]. split; [exact A2|]. exists raw0. split; [exact A3|].
      assert (N.to_nat x < List.length (entriesOf E))%nat by (apply nth_error_Some; congruence). unfold entriesOf in H. rewrite map_length in H.
      destruct (N.eqb_spec x n) as [->|_]; [unfold n, lenN in H; lia|exact A4].
    + cbn [ep_entry ep e le_root le_ts]. split; [exact Hroot|]. split; [exact Hnow|]. exists raw. split; [exact Q1|].
      unfold entriesOf in Hx. rewrite map_length in Hx. destruct (N.eqb_spec x n) as [_|Q]; [reflexivity|]. exfalso. apply Q. unfold n, lenN. lia.
  - intros i j e1 e2 Hij H1 H2. rewrite entriesOf_app in H1, H2. apply nth_snoc in H1, H2. destruct H1 as [H1|[H1 ->]], H2 as [H2|[H2 ->]].
    + eapply (ds_sorted _ _ _ _ _ _ HD); eauto.
    + cbn [ep_entry ep e le_ts]. assert (Li : (i < List.length (entriesOf E))%nat) by (apply nth_error_Some; congruence).
      destruct (nth_error (entriesOf E) (List.length E - 1)) as [el|] eqn:El.
      * etransitivity; [|exact (Late el eq_refl)]. unfold entriesOf in Li. rewrite map_length in Li. eapply (ds_sorted _ _ _ _ _ _ HD i (List.length E - 1)%nat); [lia|exact H1|exact El].
      * apply nth_error_None in El. unfold entriesOf in *. rewrite map_length in *. lia.
    + assert (j < List.length (entriesOf E))%nat by (apply nth_error_Some; congruence). lia.
    + lia.
  - exists (leaves ++ [leaf]), fs'. split; [exact FL'|exact Fo'].
  - exists ((past ++ [(m, h)]) ++ [(PrefixSpec.update m padd prem, root)]). split; [exact Hist'|]. split; [unfold n, lenN in Lp; rewrite !app_length; cbn; lia|].
    intros i ep0 Hi. apply nth_snoc in Hi. destruct Hi as [Hi|[-> ->]].
    + destruct (Hv i ep0 Hi) as (m' & A & B). exists m'. split; [|exact B]. rewrite nth_error_app1; [exact A|]. apply nth_error_Some. congruence.
    + exists (PrefixSpec.update m padd prem). split.
      * unfold n, lenN in Lp. rewrite nth_error_app2 by (rewrite app_length; cbn; lia). rewrite app_length. cbn [List.length].
        replace (S (List.length E) - (List.length past + 1))%nat with 0%nat by lia. reflexivity.
      * cbn [ep_labels ep]. exact (map_after f hs Hf vrf Ls HV opening n order add remove cur HO HLs counts m Hm).
  - intros l Hl. rewrite current_app. cbn [ep_labels ep]. destruct (LI l Hl) as [A _]. exact A.
  - intros l Hl. rewrite current_app, lenN_snoc. cbn [ep_labels ep]. destruct (ds_positions _ _ _ _ _ _ HD l Hl) as (A & B & C). fold cur in A, B, C.
    unfold P. rewrite publish_eq. rewrite map_app. unfold newFor. rewrite next_pos.
    assert (A' : StronglySorted N.le (map pv_pos (kept remove cur l)) /\ Forall (fun p => pv_pos p < n) (kept remove cur l)).
    { unfold kept. destruct (existsb _ _); [split; constructor|split; assumption]. }
    destruct A' as [A' B']. split; [|split].
    + apply sorted_app; [exact A'|]. apply Forall_map. eapply Forall_impl; [|exact B']. cbn beta. intros; lia.
    + apply Forall_app. split; [eapply Forall_impl; [|exact B']; cbn beta; intros; unfold n in *; lia|].
      assert (FP : Forall (fun x => x < lenN E + 1) (map pv_pos (nextVersions opening n l (lenN (kept remove cur l)) (valuesFor add l)))).
      { rewrite next_pos. clear. induction (List.length (valuesFor add l)); constructor; auto. unfold n. lia. }
      now apply Forall_map in FP.
    + destruct (in_dec bytes_eq_dec l order) as [I|Nl]; [apply Hcount in I; unfold P in I; rewrite publish_eq in I; exact I|].
      destruct (not_mentioned opening n order add remove cur HO l Nl) as [K N0]. unfold newFor in N0. rewrite N0, K, app_nil_r. exact C.
  - intros l v Hl Hv'. rewrite current_app. cbn [ep_labels ep]. destruct (LI l Hl) as [_ B]. exact (B v Hv').
Qed.

Lemma cur_fine l : In l order -> labelAt f s l (cur l) /\ fineLabel opening n add remove cur l.
Proof.
  intro I. pose proof (HLs l I) as Hl. split; [split|].
  - apply (ds_index _ _ _ _ _ _ HD l Hl).
  - intros v Hv. exact (ds_versions _ _ _ _ _ _ HD l v Hl Hv).
  - destruct (ds_positions _ _ _ _ _ _ HD l Hl) as (A & B & C). repeat split; [exact A|exact B|exact C|apply Hcount; exact I].
Qed.

Lemma choose_cases : 
  (exists e, nth_error (entriesOf E) (List.length E - 1) = Some e /\ now < le_ts e /\ exists msg, chooseTimestamp hs c now n s = Fail msg) \/
  ((forall e, nth_error (entriesOf E) (List.length E - 1) = Some e -> le_ts e <= now) /\
   exists o, chooseTimestamp hs c now n s = Ok o /\ greatestOf (earlierDistinguished c E now) o).
Proof.
  destruct (nth_error (entriesOf E) (List.length E - 1)) as [e|] eqn:Ee.
  - destruct (N.lt_ge_cases now (le_ts e)) as [A|A].
    + left. exists e. split; [reflexivity|]. split; [exact A|].
      assert (Hl : (0 < List.length E)%nat).
      { assert (List.length E - 1 < List.length (entriesOf E))%nat by (apply nth_error_Some; congruence). unfold entriesOf in H. rewrite map_length in H. lia. }
      exact (choose_late hs c s E now (ds_size _ _ _ _ _ _ HD) (ds_entries _ _ _ _ _ _ HD) e Hl Ee A).
    + right. split; [intros e' [= <-]; exact A|]. apply (choose_ok hs c s E now (ds_size _ _ _ _ _ _ HD) (ds_entries _ _ _ _ _ _ HD) (ds_sorted _ _ _ _ _ _ HD) Hnow).
      intros e' Ee'. congruence.
  - right. split; [discriminate|]. apply (choose_ok hs c s E now (ds_size _ _ _ _ _ _ HD) (ds_entries _ _ _ _ _ _ HD) (ds_sorted _ _ _ _ _ _ HD) Hnow).
    intros e' Ee'. congruence.
Qed.

Lemma step_sound au th s' : mutateM (full f) hs c vrf sign opening order now n add remove s = (Ok (au, th), s') ->
  (forall e, nth_error (entriesOf E) (List.length E - 1) = Some e -> le_ts e <= now) /\
  (forall l, In l remove -> cur l <> [] -> removable c E now l) /\
  exists root, let E' := E ++ [{| ep_entry := {| le_ts := now; le_root := root |}; ep_labels := P |}] in
    describes f hs vrf Ls s' E' /\ th_size th = lenN E' /\ signedFor f c valid E' th /\ (exists raw, treeHeadMarshal th = Ok raw /\ x_head s' = Some raw) /\
    au_ts au = now /\ au_added au = padd /\
    exists coms st, mutate (full f) (N.to_nat hs) (x_prefix s) n padd prem = Ok (root, au_proof au, coms, st) /\ au_removed au = combine prem coms.
Proof.
  intro R. unfold mutateM in R. mok R o s1 R1.
  destruct choose_cases as [(e & _ & _ & msg & Q)|(Late & o' & Q & G)]; rewrite Q in R1; [discriminate|]. injection R1 as <- <-.
  mok R muts s1 R1. rewrite (group_ok order add remove cur s) in R1 by (intros l I; apply (ds_index _ _ _ _ _ _ HD); auto). injection R1 as <- <-.
  mok R ar s1 R1. destruct ar as [a r]. destruct HO as [ND HO'].
  destruct (labels_ok f vrf opening n o' add remove cur ltac:(unfold n; lia) order s a r s1 ND cur_fine R1) as (Rem & -> & -> & La & OL).
  split; [exact Late|]. split.
  - intros l I NE. assert (Io : In l order) by (apply HO'; now right). destruct (Rem l Io I NE) as (x & -> & Fx). destruct G as [G _].
    exists x. split; [exact G|exact Fx].
  - apply (finish_ok s1 au th s' OL La Late). exact R.
Qed.

Hypothesis Hvalues : Forall (fun p => okValue (snd p)) add.
Hypothesis Hworks : forall tbs, exists sg, sign tbs = Ok sg /\ lenN sg < 2 ^ 16.
Hypothesis Hconf : exists raw, pubConfigMarshal c = Ok raw.

Lemma step_progress :
  (forall e, nth_error (entriesOf E) (List.length E - 1) = Some e -> le_ts e <= now) ->
  (forall l, In l remove -> cur l <> [] -> removable c E now l) ->
  exists au th s', mutateM (full f) hs c vrf sign opening order now n add remove s = (Ok (au, th), s').
Proof.
  intros Late Rem. unfold mutateM.
  destruct choose_cases as [(e & Ee & A & _)|(_ & o & Q & G)]; [exfalso; specialize (Late e Ee); lia|].
  erewrite mbind_eq by (rewrite Q; reflexivity).
  rewrite (mbind_eq _ _ _ _ _ (group_ok order add remove cur s ltac:(intros l I; apply (ds_index _ _ _ _ _ _ HD); auto))).
  destruct (labels_fine f hs vrf opening n o add remove cur ltac:(unfold n; lia) Hvalues order s) as ([a r] & s1 & R1).
  { intros l I. pose proof (HLs l I) as Hl. destruct HV as (V1 & _). split; [auto|]. destruct (ds_positions _ _ _ _ _ _ HD l Hl) as (A & B & C). split; [|split; assumption].
    intros Ir NE. destruct (Rem l Ir NE) as (d & Hd & Fd). destruct o as [x|]; [|exfalso; exact (G d Hd)]. destruct G as [_ G]. exists x. split; [reflexivity|].
    specialize (G d Hd). eapply Forall_impl; [|exact Fd]. cbn beta. intros; lia. }
  rewrite (mbind_eq _ _ _ _ _ R1). pose proof HO as [ND HO'].
  destruct (labels_ok f vrf opening n o add remove cur ltac:(unfold n; lia) order s a r s1 ND cur_fine R1) as (_ & -> & -> & La & OL).
  fold padd. fold prem.
  assert (OLp : x_prefix s1 = x_prefix s /\ x_log s1 = x_log s /\ x_entries s1 = x_entries s) by (destruct OL as [-> _]; repeat split; reflexivity).
  destruct OLp as (OLp & OLl & OLe).
  destruct prefix_now as (past & m & h & Hh & Lp & Hm & Hv).
  assert (BS : lenN padd + lenN prem < two32).
  { unfold two32. eapply N.le_lt_trans; [|exact Hbatch]. apply (batch_size f vrf opening n order add remove cur HO). }
  destruct (hist_mutate f (N.to_nat hs) Hf' Hs32 (x_prefix s) past m h padd prem Hh) as [HA _].
  { rewrite Lp. unfold n, two64. change (2 ^ 64) with 18446744073709551616. change (2 ^ 63) with 9223372036854775808 in Hsize. lia. }
  { exact (effective_batch f hs Hf vrf Ls opening n order add remove cur HO HLs counts Heff). }
  { exact BS. }
  destruct HA as (root & proof & coms & st & Mu & _).
  { apply (admissible_now f hs Hf vrf Ls HV opening n order add remove cur HO HLs counts m Hm).
    intros l i p I Np. destruct (La l I) as [_ LV]. pose proof (kept_len f hs Hf Ls opening n order add remove cur HLs counts l I) as KL.
    assert (Hi : (i < List.length (newFor opening n add remove cur l))%nat) by (apply nth_error_Some; congruence).
    specialize (LV (lenN (kept remove cur l) + N.of_nat i)). unfold P in LV. rewrite publish_eq in LV. rewrite nth_error_app2 in LV by (unfold lenN; lia).
    replace (N.to_nat (lenN (kept remove cur l) + N.of_nat i) - List.length (kept remove cur l))%nat with i in LV by (unfold lenN; lia). rewrite Np in LV.
    destruct LV as (raw & _ & _ & LC); [unfold lenN in *; lia|]. eauto. }
  rewrite Lp in Mu. rewrite <- OLp in Mu. erewrite mbind_eq by (rewrite Mu; reflexivity).
  unfold issueTreeHead. set (e := {| le_ts := now; le_root := root |}).
  destruct (ds_log _ _ _ _ _ _ HD) as (leaves & fs & FL & Fo). destruct (leaves_len _ _ FL) as [LL FS].
  assert (LE : lenN leaves = n) by (unfold n, lenN; rewrite LL; unfold entriesOf; now rewrite map_length).
  destruct (entry_hash e) as (leaf & Eh & Hleaf).
  destruct (append_ok leaves leaf fs (x_log s) ltac:(lia) FS Hleaf Fo) as (fs' & st' & root2 & TA & Fo' & LR & MT). rewrite LE in TA, LR.
  destruct Hconf as [rawc Hc]. 
  assert (TB : treeHeadTBS c (add64 n 1) root2 = Ok (rawc ++ writeNum 8 (add64 n 1) ++ root2)) by (unfold treeHeadTBS; rewrite Hc; reflexivity).
  destruct (Hworks (rawc ++ writeNum 8 (add64 n 1) ++ root2)) as (sg & Sg & Ls16).
  assert (TH : exists rh, treeHeadMarshal {| th_size := add64 n 1; th_sig := sg |} = Ok rh).
  { unfold treeHeadMarshal. cbn [th_sig th_size]. destruct (writeBytes_fine f hs vrf opening 2 sg) as [x ->]; [change (maxS 2) with 65535; change (2 ^ 16) with 65536 in Ls16; lia|]. cbn [bind]. eauto. }
  destruct TH as [rh TH]. rewrite <- add1 in LR.
  unfold mbind, liftM, modify, ret. unfold logEntryMarshal. rewrite Eh. cbn [x_log setEntries setPrefix]. rewrite OLl, TA, LR, TB, Sg, TH. eauto.
Qed.
End Step.
End Whole.
