(** Proofs about mutations: timestamps, and what holds of mutations without any assumption about the database. *)
From Coq Require Import Sorted.
From Verif Require Import Base BaseProofs NodeMathProofs LogMathModel LogTreeModel LogTreeSpec LogChunkModel
  PrefixModel CodecModel CodecSpec CodecProofs CodecProofs2
  AlgModel HandleModel StoreModel StoreProofs CommitModel MutateModel MutateSpec MutateProofs2 MutateProofs4 MutateProofs5.
Open Scope N_scope.
Local Open Scope list_scope.

(** ** What a computation leaves alone *)
Definition keeps {A X} (g : contents -> X) (m : M A) : Prop := forall s, g (snd (m s)) = g s.

Lemma keeps_bind {A B X} (g : contents -> X) (m : M A) (k : A -> M B) : keeps g m -> (forall a, keeps g (k a)) -> keeps g (mbind m k).
Proof.
  intros Km Kk s. unfold mbind. specialize (Km s). destruct (m s) as [r s']. cbn [snd] in Km. destruct r as [a|?|?|]; [|exact Km|exact Km|exact Km].
  rewrite Kk. exact Km.
Qed.
Lemma keeps_lift {A X} (g : contents -> X) (r : res A) : keeps g (liftM r).
Proof. intro s. reflexivity. Qed.
Lemma keeps_ret {A X} (g : contents -> X) (a : A) : keeps g (ret a).
Proof. intro s. reflexivity. Qed.
Lemma keeps_modify {X} (g : contents -> X) h : (forall s, g (h s) = g s) -> keeps g (modify h).
Proof. intros E s. apply E. Qed.

Ltac keep := repeat first [apply keeps_bind; [|intros; repeat match goal with x : _ * _ |- _ => destruct x end]|apply keeps_lift|apply keeps_ret|apply keeps_modify; reflexivity].

Lemma mutateLabels_keeps {X} (g : contents -> X) H vrf opening n d muts : (forall s v, g (setIndex s v) = g s) -> (forall s v, g (setVersions s v) = g s) ->
  keeps g (mutateLabels H vrf opening n d muts).
Proof.
  intros K1 K2. induction muts as [|mu t IH]; [apply keeps_ret|]. cbn [mutateLabels]. apply keeps_bind; [|intros [a r]; keep; exact IH].
  unfold mutateLabel. apply keeps_bind.
  { destruct (_ && _); [|apply keeps_ret]. destruct (match d with None => _ | Some _ => _ end); [apply keeps_lift|].
    apply keeps_bind; [apply keeps_modify; intros; apply K1|]. intros _. generalize 0. induction (lm_index mu) as [|x ix IHx]; intro v; cbn [removeVersions]; [apply keeps_ret|].
    apply keeps_bind; [apply keeps_modify; intros; apply K2|]. intros _. keep. apply IHx. }
  intros rem. apply keeps_bind.
  { generalize (if lm_remove mu && negb (lenN (lm_index mu) =? 0) then [] else lm_index mu). generalize (lm_add mu).
    intro adds. induction adds as [|lv adds IHa]; intro ix; cbn [addVersions]; [apply keeps_ret|].
    apply keeps_bind; [apply keeps_lift|]. intro o. apply keeps_bind.
    - unfold putVersion. apply keeps_bind; [apply keeps_lift|]. intro raw. apply keeps_bind; [apply keeps_modify; intros; apply K2|]. intros; apply keeps_lift.
    - intro com. apply keeps_bind; [apply IHa|]. intros [a b]. apply keeps_ret. }
  intros [added ix]. apply keeps_bind; [|intros; apply keeps_ret].
  destruct (lm_add mu); [apply keeps_ret|]. unfold putIndexM. apply keeps_bind; [apply keeps_lift|]. intro v. apply keeps_bind; [apply keeps_lift|].
  intro b. apply keeps_modify. intros; apply K1.
Qed.

Lemma prefix_keeps {X} (g : contents -> X) H hs n padd prem : (forall s v, g (setPrefix s v) = g s) ->
  keeps g (fun s => match mutate H hs (x_prefix s) n padd prem with
              | Ok (root, proof, coms, st) => (Ok (root, proof, coms), setPrefix s st)
              | Fail m => (Fail m, s) | Panic m => (Panic m, s) | Fuel => (Fuel, s)
              end).
Proof. intros K s. destruct (mutate _ _ _ _ _ _) as [[[[root proof] coms] st]|?|?|]; cbn [snd]; auto. Qed.

Lemma issue_keeps {X} (g : contents -> X) H hs c sign n ts root : (forall s raw, g (setEntries s (mput (x_entries s) n raw)) = g s) -> (forall s v, g (setLog s v) = g s) ->
  (forall s v, g (setHead s v) = g s) -> keeps g (issueTreeHead H hs c sign n ts root).
Proof.
  intros K1 K2 K3. unfold issueTreeHead. apply keeps_bind; [apply keeps_lift|]. intro raw. apply keeps_bind; [apply keeps_modify; intros; apply K1|]. intros _.
  apply keeps_bind; [apply keeps_lift|]. intro leaf. apply keeps_bind; [intro s; destruct (treeAppend _ _ _ _ _) as [[fs log]|?|?|]; cbn [snd]; auto|]. intro fs.
  repeat (apply keeps_bind; [apply keeps_lift|]; intros ?). apply keeps_bind; [apply keeps_modify; intros; apply K3|]. intros; apply keeps_ret.
Qed.

Section Any.
Variable H : bytes -> option bytes.
Variable hs : N.
Variable c : pubConfig.
Variable vrf : bytes -> bytes * bytes.
Variable sign : bytes -> res bytes.

Lemma mutateM_keeps {X} (g : contents -> X) opening order now n add remove :
  (forall s v, g (setIndex s v) = g s) -> (forall s v, g (setVersions s v) = g s) -> (forall s v, g (setPrefix s v) = g s) ->
  (forall s raw, g (setEntries s (mput (x_entries s) n raw)) = g s) -> (forall s v, g (setLog s v) = g s) -> (forall s v, g (setHead s v) = g s) ->
  keeps g (mutateM H hs c vrf sign opening order now n add remove).
Proof.
  intros. unfold mutateM. apply keeps_bind; [intro s; cbn beta; cbn [snd]; reflexivity|]. intro d. apply keeps_bind; [intro s; unfold groupByLabel; cbn [snd]; reflexivity|]. intro muts.
  apply keeps_bind; [apply mutateLabels_keeps; assumption|]. intros [padd prem]. apply keeps_bind; [apply prefix_keeps; assumption|]. intros [[root proof] coms].
  apply keeps_bind; [apply issue_keeps; assumption|]. intro th. apply keeps_ret.
Qed.

Lemma mget_mput_other {V} (m : list (N * V)) k v i : i <> k -> mget (mput m k v) i = mget m i.
Proof. intro Q. unfold mput. cbn [mget]. destruct (N.eqb_spec i k); [contradiction|reflexivity]. Qed.

(** Other entries are left alone, whatever happens. *)
Lemma entries_kept opening order now n add remove s i : i <> n ->
  mget (x_entries (snd (mutateM H hs c vrf sign opening order now n add remove s))) i = mget (x_entries s) i.
Proof.
  intro Hi. apply (mutateM_keeps (fun s => mget (x_entries s) i)); intros; cbn [setIndex setVersions setPrefix setEntries setLog setHead x_entries]; try reflexivity.
  now apply mget_mput_other.
Qed.

(** A success: the clock is not behind the previous entry, and the new entry is stored. *)
Lemma mutateM_ok opening order now n add remove s au th s' : n < two64 ->
  mutateM H hs c vrf sign opening order now n add remove s = (Ok (au, th), s') ->
  (forall x, 0 < n -> stampAt s (n - 1) x -> x < two64 -> x <= now) /\ stampAt s' n now /\ th_size th = add64 n 1 /\
  exists raw, treeHeadMarshal th = Ok raw /\ x_head s' = Some raw.
Proof.
  intros Hn R. unfold mutateM in R. mok R d s1 R1. injection R1 as R1 <-. mok R muts s1 R2. injection R2 as R2 <-. mok R pr s1 R3. destruct pr as [padd prem].
  mok R rpc s2 R4. destruct rpc as [[root proof] coms]. mok R th' s3 R5. unfold ret in R. injection R as <- <- <-.
  split.
  - intros x Hpos (rt & Ex) Hx. unfold chooseTimestamp in R1. rewrite (proj2 (N.ltb_lt 0 n)) in R1 by exact Hpos.
    rewrite sub64_small in R1 by (unfold two64 in *; lia).
    unfold dpTs in R1. cbn [newDataProvider d_ts mget] in R1. unfold producedHandle at 1 in R1. cbn [hTs] in R1. unfold qTs, getLogEntry in R1. rewrite Ex in R1.
    unfold newLogEntry in R1. pose proof (proj1 codec_u64 x (writeNum 8 x) rt Hx eq_refl) as K. rewrite K in R1. cbn [bind] in R1.
    destruct (readFull (N.to_nat hs) rt) as [[p r2]|?|?|] eqn:RF; cbn [bind] in R1; try discriminate.
    destruct r2; cbn in R1; try discriminate. destruct (N.ltb_spec now x) as [A|A]; [cbn [bind] in R1; discriminate|exact A].
  - clear R1 R2 R3 R4. unfold issueTreeHead in R5. unfold logEntryMarshal in R5. cbn [le_ts le_root] in R5.
    remember (writeNum 8 now ++ root) as w eqn:Ew. mok R5 raw sa Q1. unfold liftM in Q1. injection Q1 as <- <-.
    mok R5 u s21 Q2. unfold modify in Q2. injection Q2 as <- <-. mok R5 leaf s22 Q3. unfold liftM in Q3. injection Q3 as Q3 <-.
    mok R5 fs s23 Q4. destruct (treeAppend _ _ _ _ _) as [[fs' log]|?|?|]; try discriminate. injection Q4 as <- <-.
    mok R5 rt s24 Q5. unfold liftM in Q5. injection Q5 as Q5 <-. mok R5 tbs s25 Q6. unfold liftM in Q6. injection Q6 as Q6 <-.
    mok R5 sg s26 Q7. unfold liftM in Q7. injection Q7 as Q7 <-. mok R5 rawh s27 Q8. unfold liftM in Q8. injection Q8 as Q8 <-.
    mok R5 u2 s28 Q9. unfold modify in Q9. injection Q9 as <- <-. unfold ret in R5. injection R5 as <- <-.
    split; [|split; [reflexivity|]].
    + exists root. rewrite <- Ew. cbn [setHead setLog setEntries x_entries]. unfold mput. cbn [mget]. now rewrite N.eqb_refl.
    + exists rawh. split; [exact Q8|reflexivity].
Qed.

(** ** C44 *)

Definition headStored (s : contents) (h : option treeHead) : Prop :=
  match h with Some h => th_size h < two64 /\ exists raw, treeHeadMarshal h = Ok raw /\ x_head s = Some raw | None => x_head s = None end.
Definition sizeOf (t : tree) : N := match t_head t with Some h => th_size h | None => 0 end.

Record stamped (t : tree) (ts : list N) : Prop := {
  st_size : sizeOf t = lenN ts;
  st_head : headStored (durable (t_tx t)) (t_head t);
  st_bound : Forall (fun x => x < two64) ts;
  st_sorted : forall i j x y, (i <= j)%nat -> nth_error ts i = Some x -> nth_error ts j = Some y -> x <= y;
  st_durable : forall i x, nth_error ts i = Some x -> stampAt (durable (t_tx t)) (N.of_nat i) x;
  st_pending : forall i x, nth_error ts i = Some x -> stampAt (pending (t_tx t)) (N.of_nat i) x }.

Lemma reopen_head s h t' : headStored s h -> NewTree s = Ok t' -> t' = {| t_tx := {| pending := s; durable := s |}; t_head := h |}.
Proof.
  unfold headStored, NewTree. destruct h as [h|].
  - intros (Sz & raw & Em & ->). pose proof (proj1 codec_treeHead h raw [] Sz Em) as K. rewrite app_nil_r in K. rewrite K. cbn. congruence.
  - intros ->. cbn. congruence.
Qed.

Lemma kept_stamps opening order now t add remove ts i x : sizeOf t = lenN ts -> nth_error ts i = Some x -> stampAt (pending (t_tx t)) (N.of_nat i) x ->
  stampAt (snd (mutateM H hs c vrf sign opening order now (sizeOf t) add remove (pending (t_tx t)))) (N.of_nat i) x.
Proof.
  intros Sz Ei [root Ex]. exists root. rewrite entries_kept; [exact Ex|]. assert (i < List.length ts)%nat by (apply nth_error_Some; congruence). unfold lenN in Sz. lia.
Qed.

Lemma issued_stamped t ts : issued H hs c vrf sign t ts -> lenN ts < two64 -> stamped t ts.
Proof.
  induction 1 as [t N0|t ts opening order now add remove r t' I IH Hnow R|t ts t' I IH Ho|t ts opening order now add remove s t' I IH Hs Ho]; intro Hlen.
  - cbn in N0. injection N0 as <-. constructor; cbn; auto; try reflexivity; intros [|?]; discriminate.
  - assert (Hl : lenN ts < two64) by (destruct r; try exact Hlen; rewrite lenN_snoc in Hlen; lia). specialize (IH Hl). destruct IH as [Sz Hd Bd So Du Pe].
    unfold Mutate in R. fold (sizeOf t) in R.
    pose proof (fun i x A => kept_stamps opening order now t add remove ts i x Sz A (Pe i x A)) as KS.
    destruct (mutateM H hs c vrf sign opening order now (sizeOf t) add remove (pending (t_tx t))) as [[[au th]|?|?|] s'] eqn:RM; cbn [snd] in KS; injection R as <- <-;
      try (constructor; cbn [t_tx pending durable]; assumption).
    apply mutateM_ok in RM; [|rewrite Sz; exact Hl]. destruct RM as (Late & St & Th & raw & Em & Eh). rewrite lenN_snoc in Hlen.
    assert (A1 : add64 (sizeOf t) 1 = lenN ts + 1) by (rewrite Sz; apply add64_small; exact Hlen).
    assert (Bd' : Forall (fun x => x < two64) (ts ++ [now])) by (apply Forall_app; split; [exact Bd|constructor; [exact Hnow|constructor]]).
    assert (Du' : forall i x, nth_error (ts ++ [now]) i = Some x -> stampAt s' (N.of_nat i) x).
    { intros i x Q. apply nth_snoc in Q. destruct Q as [Q|[-> ->]]; [auto|]. rewrite Sz in St. exact St. }
    assert (Last : forall i x, nth_error ts i = Some x -> x <= now).
    { intros i x Q. assert (Li : (i < List.length ts)%nat) by (apply nth_error_Some; congruence).
      destruct (nth_error ts (List.length ts - 1)) as [y|] eqn:Ey; [|apply nth_error_None in Ey; lia].
      apply N.le_trans with y; [apply (So i (List.length ts - 1)%nat); [lia|assumption|assumption]|]. apply Late.
      - rewrite Sz. unfold lenN. lia.
      - rewrite Sz. unfold lenN. replace (N.of_nat (List.length ts) - 1) with (N.of_nat (List.length ts - 1)) by lia. apply Pe. exact Ey.
      - eapply Forall_forall in Bd; [exact Bd|]. eapply nth_error_In; eauto. }
    constructor; cbn [t_tx t_head pending durable]; auto.
    + unfold sizeOf. cbn [t_head]. rewrite Th, A1, lenN_snoc. reflexivity.
    + split; [rewrite Th, A1; exact Hlen|]. eauto.
    + intros i j x y Hij Qx Qy. apply nth_snoc in Qx, Qy. destruct Qx as [Qx|[Qi ->]], Qy as [Qy|[Qj ->]].
      * eapply So; eauto.
      * eauto.
      * assert (j < List.length ts)%nat by (apply nth_error_Some; congruence). lia.
      * lia.
  - specialize (IH Hlen). destruct IH as [Sz Hd Bd So Du Pe]. rewrite (reopen_head _ _ _ Hd Ho). constructor; cbn [t_tx t_head pending durable]; auto.
  - specialize (IH Hlen). destruct IH as [Sz Hd Bd So Du Pe]. unfold mutateCrashes in Hs. fold (sizeOf t) in Hs.
    pose proof (fun i x A => kept_stamps opening order now t add remove ts i x Sz A (Pe i x A)) as KS.
    destruct (mutateM H hs c vrf sign opening order now (sizeOf t) add remove (pending (t_tx t))) as [[[au th]|?|?|] s'] eqn:RM; cbn [snd] in KS; try discriminate.
    cbn [nth_error] in Hs. injection Hs as <-.
    assert (Hd' : headStored (setHead s' (x_head (durable (t_tx t)))) (t_head t)) by (unfold headStored in *; cbn [setHead x_head]; exact Hd).
    rewrite (reopen_head _ _ _ Hd' Ho). constructor; cbn [t_tx t_head pending durable]; auto.
Qed.

(** ** C41, C42: failures, and requests that change nothing *)

Lemma failure_kept opening order now t add remove r t' : Mutate H hs c vrf sign opening order now t add remove = (r, t') -> (forall au, r <> Ok au) ->
  durable (t_tx t') = durable (t_tx t) /\ t_head t' = t_head t.
Proof.
  unfold Mutate. destruct (mutateM _ _ _ _ _ _ _ _ _ _ _ _) as [[[au th]|?|?|] s']; intros Q NO; injection Q as <- <-; auto. exfalso. eapply NO; reflexivity.
Qed.

Lemma nothing_changed opening order now t remove au t' :
  (forall l, In l order -> decodeIndex (bget (x_index (pending (t_tx t))) l) = Ok []) ->
  Mutate H hs c vrf sign opening order now t [] remove = (Ok au, t') ->
  x_index (pending (t_tx t')) = x_index (pending (t_tx t)) /\ x_versions (pending (t_tx t')) = x_versions (pending (t_tx t)).
Proof.
  intros Hi R. unfold Mutate in R. set (n := match t_head t with Some h => th_size h | None => 0 end) in R.
  destruct (mutateM _ _ _ _ _ _ _ _ _ _ _ _) as [[[au' th]|?|?|] s'] eqn:RM; try discriminate. injection R as <- <-. cbn [t_tx pending].
  unfold mutateM in RM. mok RM d s1 R1. injection R1 as R1 <-. mok RM muts s1 R2. unfold groupByLabel in R2. injection R2 as R2 <-.
  assert (F : Forall (fun mu => lm_index mu = [] /\ lm_add mu = []) muts).
  { clear RM R1. revert muts R2. induction order as [|l o IH]; intros muts R2; cbn [mapM] in R2; [injection R2 as <-; constructor|].
    rewrite (Hi l (or_introl eq_refl)) in R2. cbn [bind] in R2. destruct (mapM _ o) as [ms|?|?|] eqn:Q; cbn [bind] in R2; try discriminate. injection R2 as <-.
    constructor; [split; reflexivity|]. apply IH; [intros; apply Hi; now right|reflexivity]. }
  assert (L : forall s, mutateLabels H vrf opening n d muts s = (Ok ([], []), s)).
  { clear -F. induction F as [|mu ms [A B] F IH]; intro s; [reflexivity|]. cbn [mutateLabels]. unfold mutateLabel. rewrite A, B.
    cbn [lenN List.length N.of_nat N.eqb negb]. rewrite Bool.andb_false_r. unfold mbind, ret. cbn [addVersions]. unfold ret. rewrite IH. reflexivity. }
  mok RM pr s1 R3. rewrite L in R3. injection R3 as <- <-.
  match type of RM with ?m _ = _ => pose proof (fun X (g : contents -> X) (K : keeps g m) => K (pending (t_tx t))) as KK end.
  rewrite RM in KK. cbn [snd] in KK.
  split; apply KK; (apply keeps_bind; [apply prefix_keeps; reflexivity|]; intros [[root proof] coms]; apply keeps_bind; [apply issue_keeps; reflexivity|]; intro; apply keeps_ret).
Qed.

End Any.
