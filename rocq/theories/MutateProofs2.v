(** Proofs about mutations: one label, and all the labels of a request. *)
From Coq Require Import Permutation Sorted.
From Verif Require Import Base BaseProofs LogMathModel LogMathSpec LogTreeModel LogTreeSpec LogChunkModel PrefixModel PrefixSpec CodecModel CodecSpec CodecProofs CodecProofs2
  TransMathSpec AlgModel AlgSpec HandleModel HandleSpec StoreModel StoreProofs CommitModel MutateModel MutateSpec MutateProofs.
Open Scope N_scope.
Local Open Scope list_scope.

Lemma lvEqb_spec a b : lvEqb a b = true <-> a = b.
Proof.
  destruct a as [l v], b as [l' v']. unfold lvEqb. cbn. rewrite andb_true_iff, bytes_eqb_eq, N.eqb_eq. split; [intros [-> ->]; auto|intros [= -> ->]; auto].
Qed.
Lemma lvEqb_refl a : lvEqb a a = true. Proof. now apply lvEqb_spec. Qed.
Lemma lvEqb_false a b : a <> b -> lvEqb a b = false.
Proof. intro Hn. destruct (lvEqb a b) eqn:E; [|reflexivity]. apply lvEqb_spec in E. contradiction. Qed.

Lemma vget_filter m k k' : vget (filter (fun e => negb (lvEqb k (fst e))) m) k' = if lvEqb k' k then None else vget m k'.
Proof.
  induction m as [|[a v] m IH]; cbn [filter vget fst]; [now destruct (lvEqb k' k)|].
  destruct (lvEqb k a) eqn:E; cbn [negb].
  - rewrite IH. apply lvEqb_spec in E. subst a. now destruct (lvEqb k' k).
  - cbn [vget]. rewrite IH. destruct (lvEqb k' a) eqn:E2; [|reflexivity]. apply lvEqb_spec in E2. subst a.
    destruct (lvEqb k' k) eqn:E3; [|reflexivity]. apply lvEqb_spec in E3. subst k'. rewrite lvEqb_refl in E. discriminate.
Qed.

(** Destructs one bind of a computation that returned [Ok]. *)
Lemma mbind_ok {A B} (m : M A) (k : A -> M B) s b s' : mbind m k s = (Ok b, s') -> exists a s1, m s = (Ok a, s1) /\ k a s1 = (Ok b, s').
Proof. unfold mbind. destruct (m s) as [[a|e|e|] s1]; try discriminate. eauto. Qed.
Lemma mbind_eq {A B} (m : M A) (k : A -> M B) s a s1 : m s = (Ok a, s1) -> mbind m k s = k a s1.
Proof. unfold mbind. intros ->. reflexivity. Qed.
Lemma liftM_ok {A} (r : res A) s a s' : liftM r s = (Ok a, s') -> r = Ok a /\ s' = s.
Proof. unfold liftM. intros [= -> ->]. auto. Qed.

Ltac mok H a s1 E := apply mbind_ok in H; destruct H as (a & s1 & E & H).

Section Label.
Variable f : bytes -> bytes.
Variable hs : N.
Variable vrf : bytes -> bytes * bytes.
Variable opening : bytes -> N -> bytes.

Local Notation keyOf := (keyOf vrf).
Local Notation comOf := (comOf f).

Definition versionAt (s : contents) (l : bytes) (v : N) (o : option pubVersion) : Prop :=
  match o with
  | Some p => exists raw, openingAndValueMarshal {| ov_opening := pv_opening p; ov_value := pv_value p |} = Ok raw /\ vget (x_versions s) (l, v) = Some raw /\
      labelCommitment (full f) (pv_opening p) l v (pv_value p) = Ok (comOf l v p)
  | None => vget (x_versions s) (l, v) = None
  end.

Lemma versionAt_ext s s' l v o : vget (x_versions s') (l, v) = vget (x_versions s) (l, v) -> versionAt s l v o -> versionAt s' l v o.
Proof. intros E. unfold versionAt. now rewrite E. Qed.

Fixpoint pairsFor (l : bytes) (v : N) (ps : list pubVersion) : list entry :=
  match ps with [] => [] | p :: t => (keyOf l v, comOf l v p) :: pairsFor l (v + 1) t end.
Fixpoint keysFrom (l : bytes) (v : N) (k : nat) : list bytes :=
  match k with O => [] | S k' => keyOf l v :: keysFrom l (v + 1) k' end.

(** Nothing but the versions table changes. *)
Definition sameButVersions (s s' : contents) : Prop := s' = setVersions s (x_versions s').
Lemma sbv_refl s : sameButVersions s s. Proof. destruct s; reflexivity. Qed.
Lemma sbv_set s v : sameButVersions s (setVersions s v). Proof. reflexivity. Qed.
Lemma sbv_trans s s' s'' : sameButVersions s s' -> sameButVersions s' s'' -> sameButVersions s s''.
Proof. unfold sameButVersions. intros E1 E2. rewrite E1 in E2. exact E2. Qed.

Lemma vrf_ok l v input : vrfInput l v = Ok input -> fst (vrf input) = keyOf l v.
Proof. intro E. unfold MutateSpec.keyOf. now rewrite E. Qed.

Lemma w32_small v : v < 2 ^ 32 -> w32 v = v.
Proof. intro Hv. unfold w32, two32. change (2 ^ 32) with 4294967296 in *. now apply N.mod_small. Qed.

Lemma remove_ok l idx : forall v s out s', v + lenN idx <= 2 ^ 32 -> removeVersions vrf l v idx s = (Ok out, s') ->
  out = keysFrom l v (List.length idx) /\ sameButVersions s s' /\
  (forall l' v', l' <> l -> vget (x_versions s') (l', v') = vget (x_versions s) (l', v')) /\
  (forall v', v' < v \/ v + lenN idx <= v' -> vget (x_versions s') (l, v') = vget (x_versions s) (l, v')) /\
  (forall v', v <= v' < v + lenN idx -> vget (x_versions s') (l, v') = None).
Proof.
  induction idx as [|p idx IH]; intros v s out s' Hv E.
  - cbn in E. injection E as <- <-. split; [reflexivity|]. split; [apply sbv_refl|]. unfold lenN; cbn. repeat split; auto; intros; lia.
  - cbn [removeVersions] in E. assert (Hw : w32 v = v) by (apply w32_small; unfold lenN in Hv; cbn [List.length] in Hv; lia). rewrite Hw in E.
    assert (Hl : lenN (p :: idx) = lenN idx + 1) by (unfold lenN; cbn [List.length]; lia). rewrite Hl in *.
    mok E u s1 E1. unfold modify in E1. injection E1 as _ <-.
    mok E kp s2 E2. apply liftM_ok in E2. destruct E2 as [E2 ->]. unfold computeVrfOutput in E2.
    destruct (vrfInput l v) as [input|?|?|] eqn:Ei; try discriminate. injection E2 as <-.
    mok E rest s3 E3. cbn [ret] in E. injection E as <- <-.
    destruct (IH (v + 1) _ _ _ ltac:(lia) E3) as (-> & Sb & O1 & O2 & O3). cbn [x_versions setVersions] in *.
    split; [cbn [keysFrom List.length]; now rewrite (vrf_ok _ _ _ Ei)|].
    split; [eapply sbv_trans; [apply sbv_set|exact Sb]|].
    split; [|split].
    + intros l' v' Hn. rewrite O1 by exact Hn. rewrite vget_filter, lvEqb_false; [reflexivity|congruence].
    + intros v' Hv'. rewrite O2 by lia. rewrite vget_filter, lvEqb_false; [reflexivity|]. intros [= ->]. lia.
    + intros v' Hv'. destruct (N.eq_dec v' v) as [->|Hn].
      * rewrite O2 by lia. rewrite vget_filter, lvEqb_refl. reflexivity.
      * apply O3. lia.
Qed.

Lemma add_ok n l adds : forall idx s a idx' s', lenN idx + lenN adds <= 2 ^ 32 -> Forall (fun p => fst p = l) adds ->
  addVersions (full f) vrf opening n adds idx s = (Ok (a, idx'), s') ->
  let new := nextVersions opening n l (lenN idx) (map snd adds) in
  a = pairsFor l (lenN idx) new /\ idx' = idx ++ map pv_pos new /\ sameButVersions s s' /\
  (forall l' v', l' <> l -> vget (x_versions s') (l', v') = vget (x_versions s) (l', v')) /\
  (forall v', v' < lenN idx \/ lenN idx + lenN adds <= v' -> vget (x_versions s') (l, v') = vget (x_versions s) (l, v')) /\
  (forall i p, nth_error new i = Some p -> versionAt s' l (lenN idx + N.of_nat i) (Some p)).
Proof.
  induction adds as [|[l0 x] adds IH]; intros idx s a idx' s' Hk F E new.
  - cbn in E. injection E as <- <- <-. cbn. rewrite app_nil_r. split; [reflexivity|]. split; [reflexivity|]. split; [apply sbv_refl|].
    split; [auto|]. split; [auto|]. intros [|i] p; discriminate.
  - pose proof (Forall_inv F) as Fl. pose proof (Forall_inv_tail F) as F'. cbn [fst] in Fl. subst l0. cbn [addVersions fst snd] in E.
    assert (Hl : lenN ((l, x) :: adds) = lenN adds + 1) by (unfold lenN; cbn [List.length]; lia). rewrite Hl in *.
    assert (Hw : w32 (lenN idx) = lenN idx) by (apply w32_small; lia). rewrite Hw in E.
    mok E kp s1 E1. apply liftM_ok in E1. destruct E1 as [E1 ->]. unfold computeVrfOutput in E1.
    destruct (vrfInput l (lenN idx)) as [input|?|?|] eqn:Ei; try discriminate. injection E1 as <-.
    mok E com s2 E2. unfold putVersion in E2. mok E2 raw s3 E3. apply liftM_ok in E3. destruct E3 as [E3 ->].
    mok E2 u s4 E4. unfold modify in E4. injection E4 as _ <-. apply liftM_ok in E2. destruct E2 as [E2 ->].
    mok E ri s5 E5. destruct ri as [rest idx2]. cbn [ret] in E. injection E as <- <- <-.
    assert (Hi : lenN (idx ++ [n]) = lenN idx + 1) by (unfold lenN; rewrite app_length; cbn [List.length]; lia).
    destruct (IH (idx ++ [n]) _ _ _ _ ltac:(lia) F' E5) as (Ea & Ex & Sb & O1 & O2 & O3). rewrite Hi in *. cbn [x_versions setVersions] in *.
    set (p0 := {| pv_pos := n; pv_opening := opening l (lenN idx); pv_value := x |}) in *.
    assert (Ep : new = p0 :: nextVersions opening n l (lenN idx + 1) (map snd adds)) by reflexivity. rewrite Ep. cbn [map pairsFor].
    assert (Ec : com = comOf l (lenN idx) p0) by (unfold MutateSpec.comOf; cbn [p0 pv_opening pv_value]; now rewrite E2).
    split; [rewrite (vrf_ok _ _ _ Ei), Ea, Ec; reflexivity|].
    split; [rewrite Ex, <- app_assoc; reflexivity|].
    split; [eapply sbv_trans; [apply sbv_set|exact Sb]|].
    split; [|split].
    + intros l' v' Hn. rewrite O1 by exact Hn. cbn [vget]. rewrite lvEqb_false by congruence. reflexivity.
    + intros v' Hv'. rewrite O2 by lia. cbn [vget]. rewrite lvEqb_false; [reflexivity|]. intros [= ->]. lia.
    + intros [|i] p Hp.
      * cbn in Hp. injection Hp as <-. rewrite N.add_0_r. cbn [versionAt p0 pv_opening pv_value]. exists raw. split; [exact E3|].
        split; [|rewrite E2, Ec; reflexivity]. rewrite O2 by lia. cbn [vget]. now rewrite lvEqb_refl.
      * cbn [nth_error] in Hp. specialize (O3 i p Hp). replace (lenN idx + N.of_nat (S i)) with (lenN idx + 1 + N.of_nat i) by lia. exact O3.
Qed.

(** ** One label *)

Definition labelAt (s : contents) (l : bytes) (ps : list pubVersion) : Prop :=
  decodeIndex (bget (x_index s) l) = Ok (map pv_pos ps) /\ forall v, v < 2 ^ 32 -> versionAt s l v (nth_error ps (N.to_nat v)).

(** Only what is stored for the label [l] changes. *)
Definition onlyLabel (l : bytes) (s s' : contents) : Prop :=
  s' = setVersions (setIndex s (x_index s')) (x_versions s') /\
  forall l', l' <> l -> bget (x_index s') l' = bget (x_index s) l' /\ forall v, vget (x_versions s') (l', v) = vget (x_versions s) (l', v).

Lemma only_labelAt l l' s s' ps : onlyLabel l s s' -> l' <> l -> labelAt s l' ps -> labelAt s' l' ps.
Proof.
  intros [_ O] Hn [A B]. destruct (O l' Hn) as [Oi Ov]. split; [now rewrite Oi|]. intros v Hv. eapply versionAt_ext; [apply Ov|]. auto.
Qed.

Lemma sorted_app (a : list N) n k : StronglySorted N.le a -> Forall (fun x => x <= n) a -> StronglySorted N.le (a ++ repeat n k).
Proof.
  induction a as [|x a IH]; intros S F; cbn.
  - induction k; constructor; auto. clear. induction k; constructor; auto. lia.
  - inversion S; subst. pose proof (Forall_inv F) as Fx. apply Forall_inv_tail in F. constructor; [auto|]. apply Forall_app. split; [assumption|].
    clear -Fx. induction k; constructor; auto.
Qed.

Lemma next_len n l vs : forall v, List.length (nextVersions opening n l v vs) = List.length vs.
Proof. induction vs; intro v; cbn; auto. Qed.
Lemma next_pos n l vs : forall v, map pv_pos (nextVersions opening n l v vs) = repeat n (List.length vs).
Proof. induction vs; intro v; cbn; f_equal; auto. Qed.

Lemma label_ok n d add remove l ps s a r s' :
  n < 2 ^ 63 ->
  let cur := fun _ : bytes => ps in
  let ps' := publish opening n add remove cur l in
  labelAt s l ps -> StronglySorted N.le (map pv_pos ps) -> Forall (fun p => pv_pos p < n) ps -> lenN ps < 2 ^ 32 -> lenN ps' < 2 ^ 32 ->
  mutateLabel (full f) vrf opening n d {| lm_label := l; lm_index := map pv_pos ps; lm_add := filter (fun p => bytes_eqb (fst p) l) add;
                                    lm_remove := existsb (bytes_eqb l) remove |} s = (Ok (a, r), s') ->
  (In l remove -> ps <> [] -> exists x, d = Some x /\ Forall (fun p => pv_pos p <= x) ps) /\
  a = pairsFor l (lenN (kept remove cur l)) (nextVersions opening n l (lenN (kept remove cur l)) (valuesFor add l)) /\
  r = (if existsb (bytes_eqb l) remove then keysFrom l 0 (List.length ps) else []) /\
  labelAt s' l ps' /\ onlyLabel l s s'.
Proof.
  intros Hn cur ps' [Li Lv] So Fp Hc Hc' E. unfold mutateLabel in E. cbn [lm_label lm_index lm_add lm_remove] in E.
  set (adds := filter (fun p => bytes_eqb (fst p) l) add) in *.
  assert (Fa : Forall (fun p => fst p = l) adds). { apply Forall_forall. intros p I. apply filter_In in I. now apply bytes_eqb_eq. }
  assert (LL : lenN (map pv_pos ps) = lenN ps) by (unfold lenN; now rewrite map_length).
  set (rm := existsb (bytes_eqb l) remove) in *.
  set (kp := kept remove cur l) in *.
  assert (Ek : kp = if rm then [] else ps) by reflexivity.
  assert (P' : ps' = kp ++ nextVersions opening n l (lenN kp) (map snd adds)) by reflexivity.
  assert (La : lenN kp + lenN adds = lenN ps').
  { rewrite P'. unfold lenN. rewrite app_length, next_len, map_length. lia. }
  mok E out s1 E1.
  assert (R1 : (rm = true -> ps <> [] -> exists x, d = Some x /\ Forall (fun p => pv_pos p <= x) ps) /\
    out = (if rm then keysFrom l 0 (List.length ps) else []) /\
    (forall v, v < 2 ^ 32 -> versionAt s1 l v (nth_error kp (N.to_nat v))) /\
    (adds = [] -> decodeIndex (bget (x_index s1) l) = Ok (map pv_pos kp)) /\ onlyLabel l s s1).
  { assert (OR : onlyLabel l s s) by (split; [destruct s; reflexivity|auto]).
    destruct rm eqn:Er; cbn [andb] in E1.
    2: { injection E1 as <- <-. split; [discriminate|]. split; [reflexivity|]. rewrite Ek. split; [exact Lv|]. split; [intros _; exact Li|exact OR]. }
    destruct ps as [|p0 ps0] eqn:Ep; [cbn in E1|].
    { injection E1 as <- <-. rewrite Ek. split; [congruence|]. split; [reflexivity|]. split; [|split; [intros _; exact Li|exact OR]].
      intros v Hv. exact (Lv v Hv). }
    rewrite <- Ep in *. assert (Hz : (lenN (map pv_pos ps) =? 0) = false) by (rewrite LL, Ep; unfold lenN; cbn [List.length]; apply N.eqb_neq; lia).
    rewrite Hz in E1. cbn [negb] in E1.
    destruct d as [x|]; [|discriminate]. destruct (N.ltb_spec x (List.last (map pv_pos ps) 0)) as [Hx|Hx]; [discriminate|].
    mok E1 u s2 E2. unfold modify in E2. injection E2 as _ <-.
    assert (Hr : 0 + lenN (map pv_pos ps) <= 2 ^ 32) by (rewrite LL; lia).
    destruct (remove_ok l _ _ _ _ _ Hr E1) as (Eo & Sb & O1 & O2 & O3). rewrite LL, map_length in *.
    split; [|split; [exact Eo|split; [|split]]].
    - intros _ _. exists x. split; [reflexivity|]. clear -So Hx. induction ps as [|p ps IH]; constructor.
      + cbn [map] in *. inversion So as [|? ? So' F]; subst. destruct ps as [|p1 ps1]; [exact Hx|].
        cbn [map] in *. assert (I : In (List.last (pv_pos p1 :: map pv_pos ps1) 0) (pv_pos p1 :: map pv_pos ps1)).
        { clear. revert p1. induction ps1 as [|q ps1 IH]; intro p1; cbn [map List.last]; [now left|]. right. apply IH. }
        apply (proj1 (Forall_forall _ _) F) in I. change (List.last (pv_pos p :: pv_pos p1 :: map pv_pos ps1) 0) with (List.last (pv_pos p1 :: map pv_pos ps1) 0) in Hx. lia.
      + cbn [map] in So. inversion So; subst. destruct ps as [|p1 ps1]; [constructor|]. apply IH; [assumption|exact Hx].
    - intros v Hv. rewrite Ek. replace (nth_error (@nil pubVersion) (N.to_nat v)) with (@None pubVersion) by (destruct (N.to_nat v); reflexivity). cbn [versionAt]. destruct (N.lt_ge_cases v (lenN ps)) as [A|A].
      + apply O3. lia.
      + rewrite O2 by lia. cbn [x_versions setIndex]. specialize (Lv v Hv).
        rewrite (proj2 (nth_error_None ps (N.to_nat v))) in Lv by (unfold lenN in A; lia). exact Lv.
    - intros _. rewrite Ek, Sb. cbn [setVersions setIndex x_index map]. rewrite bget_bdel, bytes_eqb_refl. reflexivity.
    - split; [rewrite Sb; reflexivity|]. intros l' Hn'. rewrite Sb. cbn [setVersions setIndex x_index x_versions]. rewrite bget_bdel.
      rewrite (proj2 (bytes_eqb_neq l' l)) by exact Hn'. split; [reflexivity|]. intro v. rewrite O1 by exact Hn'. reflexivity. }
  destruct R1 as (R1 & Ro & Rv & Ri & RO).
  set (idx := if rm && negb (lenN (map pv_pos ps) =? 0) then [] else map pv_pos ps) in *.
  assert (Eidx : idx = map pv_pos kp).
  { unfold idx. rewrite Ek. destruct rm; cbn [andb]; [|reflexivity]. destruct (N.eqb_spec (lenN (map pv_pos ps)) 0) as [Z|Z]; cbn [negb map]; [|reflexivity].
    destruct ps; [reflexivity|]. unfold lenN in Z. cbn [map List.length] in Z. lia. }
  assert (Lidx : lenN idx = lenN kp) by (rewrite Eidx; unfold lenN; now rewrite map_length).
  mok E ai s2 E2. destruct ai as [a1 idx'].
  destruct (add_ok n l adds idx s1 a1 idx' s2 ltac:(lia) Fa E2) as (Ea & Ei & Sb & O1 & O2 & O3). rewrite Lidx in *.
  mok E u s3 E3. cbn [ret] in E. injection E as <- <- <-.
  assert (E3' : s3 = s2 /\ adds = [] \/ exists b, adds <> [] /\ s3 = setIndex s2 (bput (x_index s2) l b) /\ encodeIndex idx' = Ok (Some b)).
  { destruct adds as [|p t] eqn:Ead; [injection E3 as _ <-; left; auto|right].
    inversion Fa; subst. unfold putIndexM in E3. mok E3 v s4 E4. apply liftM_ok in E4. destruct E4 as [E4 ->].
    mok E3 b s5 E5. apply liftM_ok in E5. destruct E5 as [E5 ->]. unfold modify in E3. injection E3 as _ <-.
    destruct v as [b'|]; [|discriminate]. cbn in E5. injection E5 as ->. exists b. split; [discriminate|]. split; [reflexivity|exact E4]. }
  assert (Ver : x_versions s3 = x_versions s2) by (destruct E3' as [[-> _]|(b & _ & -> & _)]; reflexivity).
  split; [|split; [exact Ea|split; [exact Ro|split; [split|]]]].
  - intros I. apply R1. now apply existsb_bytes.
  - destruct E3' as [[-> An]|(b & An & -> & Eb)].
    + rewrite Sb. cbn [setVersions x_index]. rewrite (Ri An), P', An. cbn. now rewrite app_nil_r.
    + cbn [setIndex x_index]. rewrite bget_bput, bytes_eqb_refl. rewrite Ei, Eidx in Eb.
      assert (Ep : map pv_pos ps' = map pv_pos kp ++ map pv_pos (nextVersions opening n l (lenN kp) (map snd adds))) by (rewrite P'; apply map_app).
      rewrite <- Ep in Eb. rewrite Ep in Eb. rewrite next_pos in Eb. rewrite Ep, next_pos.
      assert (F64 : Forall (fun x => x < two64) (map pv_pos kp ++ repeat n (List.length (map snd adds)))).
      { apply Forall_app. split.
        - rewrite Ek. destruct rm; [constructor|]. apply Forall_map. eapply Forall_impl; [|exact Fp]. cbn beta. intros q Hq.
          change (2 ^ 63) with 9223372036854775808 in Hn. unfold two64. change (2 ^ 64) with 18446744073709551616. lia.
        - clear -Hn. induction (List.length (map snd adds)); constructor; auto.
          change (2 ^ 63) with 9223372036854775808 in Hn. unfold two64. change (2 ^ 64) with 18446744073709551616. lia. }
      destruct (decode_encode _ F64) as [(_ & raw & E5 & E6)|(NS & msg & E5)].
      * intro Q. apply app_eq_nil in Q. destruct Q as [_ Q]. destruct adds; [contradiction|discriminate].
      * rewrite E5 in Eb. injection Eb as <-. exact E6.
      * congruence.
  - intros v Hv. rewrite P'. destruct (N.lt_ge_cases v (lenN kp)) as [A|A].
    + rewrite nth_error_app1 by (unfold lenN in A; lia). eapply versionAt_ext; [rewrite Ver; apply O2; lia|]. auto.
    + rewrite nth_error_app2 by (unfold lenN in A; lia). destruct (nth_error (nextVersions opening n l (lenN kp) (map snd adds)) (N.to_nat v - List.length kp)) as [p|] eqn:Q.
      * specialize (O3 _ _ Q). replace (lenN kp + N.of_nat (N.to_nat v - List.length kp)) with v in O3 by (unfold lenN in *; lia).
        eapply versionAt_ext; [|exact O3]. now rewrite Ver.
      * apply nth_error_None in Q. rewrite next_len, map_length in Q. cbn [versionAt]. rewrite Ver, O2 by (unfold lenN in *; lia).
        specialize (Rv v Hv). rewrite (proj2 (nth_error_None kp (N.to_nat v))) in Rv by (unfold lenN in A; lia). exact Rv.
  - destruct RO as [RO1 RO2]. split.
    + destruct E3' as [[-> _]|(b & _ & -> & _)]; rewrite Sb, RO1; reflexivity.
    + intros l' Hn'. destruct (RO2 l' Hn') as [Q1 Q2]. split.
      * destruct E3' as [[-> _]|(b & _ & -> & _)]; rewrite Sb; cbn [setVersions setIndex x_index]; [exact Q1|].
        rewrite bget_bput, (proj2 (bytes_eqb_neq l' l)) by exact Hn'. exact Q1.
      * intro v. rewrite Ver, O1 by exact Hn'. apply Q2.
Qed.


(** ** All labels *)

Definition mutFor (add : list labelValue) (remove : list bytes) (cur : labels) (l : bytes) : labelMutation :=
  {| lm_label := l; lm_index := map pv_pos (cur l); lm_add := filter (fun p => bytes_eqb (fst p) l) add; lm_remove := existsb (bytes_eqb l) remove |}.

Lemma group_ok order add remove cur s : (forall l, In l order -> decodeIndex (bget (x_index s) l) = Ok (map pv_pos (cur l))) ->
  groupByLabel order add remove s = (Ok (map (mutFor add remove cur) order), s).
Proof.
  intros Hi. unfold groupByLabel. f_equal. induction order as [|l order IH]; [reflexivity|].
  cbn [mapM map]. rewrite (Hi l (or_introl eq_refl)). cbn [bind]. rewrite IH by (intros; apply Hi; now right). reflexivity.
Qed.

(** What a request adds to and removes from the prefix tree for a label. *)
Definition addedFor (n : N) (add : list labelValue) (remove : list bytes) (cur : labels) (l : bytes) : list entry :=
  pairsFor l (lenN (kept remove cur l)) (nextVersions opening n l (lenN (kept remove cur l)) (valuesFor add l)).
Definition removedFor (remove : list bytes) (cur : labels) (l : bytes) : list bytes :=
  if existsb (bytes_eqb l) remove then keysFrom l 0 (List.length (cur l)) else [].

Definition fineLabel (n : N) (add : list labelValue) (remove : list bytes) (cur : labels) (l : bytes) : Prop :=
  StronglySorted N.le (map pv_pos (cur l)) /\ Forall (fun p => pv_pos p < n) (cur l) /\ lenN (cur l) < 2 ^ 32 /\
  lenN (publish opening n add remove cur l) < 2 ^ 32.

(** Only what is stored for labels in the list changes. *)
Definition onlyLabels (ls : list bytes) (s s' : contents) : Prop :=
  s' = setVersions (setIndex s (x_index s')) (x_versions s') /\
  forall l', ~ In l' ls -> bget (x_index s') l' = bget (x_index s) l' /\ forall v, vget (x_versions s') (l', v) = vget (x_versions s) (l', v).

Lemma labels_ok n d add remove cur : n < 2 ^ 63 -> forall order s a r s', NoDup order ->
  (forall l, In l order -> labelAt s l (cur l) /\ fineLabel n add remove cur l) ->
  mutateLabels (full f) vrf opening n d (map (mutFor add remove cur) order) s = (Ok (a, r), s') ->
  (forall l, In l order -> In l remove -> cur l <> [] -> exists x, d = Some x /\ Forall (fun p => pv_pos p <= x) (cur l)) /\
  a = flat_map (addedFor n add remove cur) order /\ r = flat_map (removedFor remove cur) order /\
  (forall l, In l order -> labelAt s' l (publish opening n add remove cur l)) /\ onlyLabels order s s'.
Proof.
  intro Hn. induction order as [|l order IH]; intros s a r s' ND Hl E.
  - cbn in E. injection E as <- <- <-. split; [intros l []|]. split; [reflexivity|]. split; [reflexivity|]. split; [intros l []|].
    split; [destruct s; reflexivity|auto].
  - inversion ND as [|? ? Nl ND']; subst. cbn [map mutateLabels] in E. mok E ar s1 E1. destruct ar as [a1 r1]. mok E ar s2 E2. destruct ar as [a2 r2].
    cbn [ret] in E. injection E as <- <- <-. destruct (Hl l (or_introl eq_refl)) as [La (F1 & F2 & F3 & F4)].
    destruct (label_ok n d add remove l (cur l) s a1 r1 s1 Hn La F1 F2 F3 F4 E1) as (R1 & Ea & Er & La' & O1).
    destruct (IH s1 a2 r2 s2 ND') as (R2 & Ea2 & Er2 & La2 & O2); [|exact E2|].
    { intros l' I. destruct (Hl l' (or_intror I)) as [Q1 Q2]. split; [|exact Q2]. eapply only_labelAt; [exact O1| |exact Q1]. intros ->. contradiction. }
    split; [|split; [|split; [|split]]].
    + intros l' [<-|I]; [exact R1|apply R2; exact I].
    + cbn [flat_map]. rewrite Ea, Ea2. reflexivity.
    + cbn [flat_map]. rewrite Er, Er2. reflexivity.
    + intros l' [<-|I]; [|apply La2; exact I]. destruct O2 as [_ O2]. destruct (O2 l Nl) as [Oi Ov]. destruct La' as [Q1 Q2].
      split; [rewrite Oi; exact Q1|]. intros v Hv. eapply versionAt_ext; [apply Ov|]. apply Q2. exact Hv.
    + destruct O1 as [Oe1 O1], O2 as [Oe2 O2]. split; [rewrite Oe2, Oe1; reflexivity|].
      intros l' Nn. destruct (O2 l') as [A B]; [intro; apply Nn; now right|]. destruct (O1 l') as [A' B']; [intros ->; apply Nn; now left|].
      split; [congruence|]. intro v. rewrite B. apply B'.
Qed.

(** ** Success *)


Lemma writeBytes_fine k b : lenN b <= maxS k -> exists raw, writeBytes k b = Ok raw.
Proof. intro Hb. unfold writeBytes. destruct (N.ltb_spec (maxS k) (lenN b)); [lia|]. eauto. Qed.

Lemma vrfInput_fine l v : lenN l <= 255 -> exists raw, vrfInput l v = Ok raw.
Proof. intro Hl. unfold vrfInput. destruct (writeBytes_fine 1 l Hl) as [raw ->]. cbn; unfold ret; eauto. Qed.

Lemma updateValue_fine u : okValue u -> exists raw, updateValueMarshal u = Ok raw.
Proof.
  intros [A B]. unfold updateValueMarshal. destruct (writeBytes_fine 4 (uv_value u)) as [r ->].
  { change (maxS 4) with 4294967295. change (2 ^ 32) with 4294967296 in A. lia. }
  cbn [bind]. unfold updateSuffixMarshal. destruct (uv_sig u) as [x|]; [|cbn; unfold ret; eauto].
  destruct (writeBytes_fine 2 x) as [r2 ->]; [change (maxS 2) with 65535; change (2 ^ 16) with 65536 in B; lia|]. cbn; unfold ret; eauto.
Qed.

Lemma putVersion_fine l v u s : lenN l <= 255 -> okValue u -> exists com s', putVersion (full f) opening l v u s = (Ok com, s').
Proof.
  intros Hl Hu. unfold putVersion. destruct (updateValue_fine u Hu) as [raw Er].
  assert (E1 : openingAndValueMarshal {| ov_opening := opening l v; ov_value := u |} = Ok (opening l v ++ raw)) by (unfold openingAndValueMarshal; cbn [ov_value ov_opening]; rewrite Er; reflexivity).
  rewrite E1. unfold mbind, liftM, modify. unfold labelCommitment, commitmentValue. destruct (writeBytes_fine 1 l Hl) as [rl ->]. rewrite Er. cbn [bind].
  unfold Commit, hmac, hash, full. cbn; unfold ret; eauto.
Qed.

Lemma remove_fine l idx : lenN l <= 255 -> forall v s, exists out s', removeVersions vrf l v idx s = (Ok out, s').
Proof.
  intros Hl. induction idx as [|p idx IH]; intros v s; [cbn; unfold ret; eauto|]. cbn [removeVersions]. unfold mbind at 1, modify.
  unfold computeVrfOutput. destruct (vrfInput_fine l (w32 v) Hl) as [raw ->]. cbn [bind]. unfold mbind at 1, liftM.
  unfold mbind. match goal with |- context [removeVersions vrf l ?vv idx ?ss] => destruct (IH vv ss) as (out & s' & ->) end. cbn; unfold ret; eauto.
Qed.

Lemma add_fine n l adds : lenN l <= 255 -> Forall (fun p => fst p = l /\ okValue (snd p)) adds ->
  forall idx s, exists a s', addVersions (full f) vrf opening n adds idx s = (Ok (a, idx ++ repeat n (List.length adds)), s').
Proof.
  intros Hl. induction 1 as [|[l0 u] adds [A B] F IH]; intros idx s; [cbn; unfold ret; rewrite app_nil_r; eauto|]. cbn [fst snd] in A, B. subst l0.
  cbn [addVersions fst snd]. unfold computeVrfOutput. destruct (vrfInput_fine l (w32 (lenN idx)) Hl) as [raw ->]. cbn [bind]. unfold mbind at 1, liftM.
  destruct (putVersion_fine l (w32 (lenN idx)) u s Hl B) as (com & s1 & E1). rewrite (mbind_eq _ _ _ _ _ E1).
  destruct (IH (idx ++ [n]) s1) as (a & s2 & E2). rewrite (mbind_eq _ _ _ _ _ E2). unfold ret. rewrite <- app_assoc. cbn; unfold ret; eauto.
Qed.

Lemma last_le (l : list N) x : l <> [] -> Forall (fun y => y <= x) l -> List.last l 0 <= x.
Proof.
  intros NE F. assert (In (List.last l 0) l).
  { destruct l as [|y l]; [contradiction|]. clear. revert y. induction l as [|z l IH]; intro y; [now left|]. right. apply IH. }
  eapply Forall_forall in F; eauto.
Qed.

Lemma label_fine n d add remove (cur : labels) l s : n < 2 ^ 63 -> lenN l <= 255 -> Forall (fun p => okValue (snd p)) add ->
  (In l remove -> cur l <> [] -> exists x, d = Some x /\ Forall (fun p => pv_pos p <= x) (cur l)) ->
  StronglySorted N.le (map pv_pos (cur l)) -> Forall (fun p => pv_pos p < n) (cur l) ->
  exists ar s', mutateLabel (full f) vrf opening n d (mutFor add remove cur l) s = (Ok ar, s').
Proof.
  intros Hn Hl Fv Hr So Fp. unfold mutateLabel. cbn [mutFor lm_label lm_index lm_add lm_remove].
  set (adds := filter (fun p => bytes_eqb (fst p) l) add). set (rm := existsb (bytes_eqb l) remove) in *.
  assert (Fa : Forall (fun p => fst p = l /\ okValue (snd p)) adds).
  { apply Forall_forall. intros p I. apply filter_In in I. destruct I as [I J]. split; [now apply bytes_eqb_eq|]. now apply (proj1 (Forall_forall _ _) Fv). }
  assert (exists out s1, (if rm && negb (lenN (map pv_pos (cur l)) =? 0)
     then if match d with Some d => d <? List.last (map pv_pos (cur l)) 0 | None => true end
       then liftM (Fail "unable to delete label that was modified recently") else
       let! _ := modify (fun s => setIndex s (bdel (x_index s) l)) in
       removeVersions vrf l 0 (map pv_pos (cur l))
     else ret []) s = (Ok out, s1)) as (out & s1 & E1).
  { destruct (rm && negb (lenN (map pv_pos (cur l)) =? 0)) eqn:R; [|cbn; unfold ret; eauto]. apply andb_prop in R. destruct R as [R1 R2].
    assert (NE : cur l <> []) by (intros Q; rewrite Q in R2; discriminate).
    destruct (Hr (proj1 (existsb_bytes _ _) R1) NE) as (x & -> & Fx).
    rewrite (proj2 (N.ltb_ge _ _)) by (apply last_le; [intros Q; apply map_eq_nil in Q; contradiction|apply Forall_map; exact Fx]).
    unfold mbind, modify. apply remove_fine. exact Hl. }
  rewrite (mbind_eq _ _ _ _ _ E1).
  set (idx := if rm && negb (lenN (map pv_pos (cur l)) =? 0) then [] else map pv_pos (cur l)).
  destruct (add_fine n l adds Hl Fa idx s1) as (a & s2 & E2). rewrite (mbind_eq _ _ _ _ _ E2).
  assert (exists s3, (match adds with [] => ret tt | p :: _ => putIndexM (fst p) (idx ++ repeat n (List.length adds)) end) s2 = (Ok tt, s3)) as (s3 & E3).
  { destruct adds as [|p t] eqn:Ea; [cbn; unfold ret; eauto|]. unfold putIndexM.
    assert (S' : StronglySorted N.le (idx ++ repeat n (List.length (p :: t)))).
    { apply sorted_app; unfold idx; destruct (rm && _); try constructor; [exact So|]. apply Forall_map. eapply Forall_impl; [|exact Fp]. cbn beta. intros; lia. }
    assert (F64 : Forall (fun x => x < two64) (idx ++ repeat n (List.length (p :: t)))).
    { assert (L64 : n < two64) by (change (2 ^ 63) with 9223372036854775808 in Hn; unfold two64; change (2 ^ 64) with 18446744073709551616; lia).
      apply Forall_app. split; [unfold idx; destruct (rm && _); [constructor|]; apply Forall_map; eapply Forall_impl; [|exact Fp]; cbn beta; intros; lia|].
      clear -L64. induction (List.length (p :: t)); constructor; auto. }
    destruct (decode_encode _ F64) as [(_ & raw & -> & _)|(NS & _)].
    - intro Q. apply app_eq_nil in Q. destruct Q as [_ Q]. discriminate Q.
    - cbn; unfold modify; eauto.
    - contradiction. }
  rewrite (mbind_eq _ _ _ _ _ E3). cbn; unfold ret; eauto.
Qed.

Lemma labels_fine n d add remove cur : n < 2 ^ 63 -> Forall (fun p => okValue (snd p)) add -> forall order s,
  (forall l, In l order -> lenN l <= 255 /\ (In l remove -> cur l <> [] -> exists x, d = Some x /\ Forall (fun p => pv_pos p <= x) (cur l)) /\
     StronglySorted N.le (map pv_pos (cur l)) /\ Forall (fun p => pv_pos p < n) (cur l)) ->
  exists ar s', mutateLabels (full f) vrf opening n d (map (mutFor add remove cur) order) s = (Ok ar, s').
Proof.
  intros Hn Fv. induction order as [|l order IH]; intros s Hl; [cbn; unfold ret; eauto|]. cbn [map mutateLabels].
  destruct (Hl l (or_introl eq_refl)) as (A & B & C & D). destruct (label_fine n d add remove cur l s Hn A Fv B C D) as ([a r] & s1 & E1).
  rewrite (mbind_eq _ _ _ _ _ E1). destruct (IH s1) as ([a2 r2] & s2 & E2); [intros; apply Hl; now right|]. rewrite (mbind_eq _ _ _ _ _ E2). cbn; unfold ret; eauto.
Qed.

End Label.
