(** Proofs about the auditor: one update, and histories of updates, commits and restarts. *)
From Verif Require Import Base BaseProofs LogMathModel LogMathSpec LogMathProofs LogMathProofs2 LogTreeModel LogTreeSpec LogTreeProofs LogAppendProofs LogTreeProofs3 LogTreeProofs3 PrefixModel PrefixSpec
  CodecModel CodecSpec CodecProofs CodecProofs2 TransMathModel TransMathSpec TransMathProofs2 AlgModel AlgSpec AlgProofs AlgProofs2 HandleModel HandleProofs5 MutateProofs
  AuditorModel AuditorSpec AuditorProofs AuditorProofs2.
Open Scope N_scope.

Section Auditor.
Variable f : bytes -> bytes.
Variable hs : N.
Hypothesis Hf : forall x, lenN (f x) = hs.
Hypothesis Hhs : 0 < hs.
Variable c : pubConfig.
Variable sign : bytes -> res bytes.
Variable key : bytes.

Notation H := (full f).
Notation follows := (follows H hs).
Notation summarizes := (summarizes H).
Notation zero b := {| le_ts := 0; le_root := b |}.

Lemma Hf' x : List.length (f x) = N.to_nat hs.
Proof. rewrite <- (Hf x). unfold lenN. lia. Qed.

Lemma lenN_snoc {A} (l : list A) a : lenN (l ++ [a]) = lenN l + 1.
Proof. unfold lenN. rewrite app_length. cbn. lia. Qed.

Lemma last_snoc {A} (l : list A) a d : List.last (l ++ [a]) d = a.
Proof. induction l as [|x l IH]; [reflexivity|]. cbn. rewrite IH. destruct (l ++ [a]) eqn:Q; [destruct l; discriminate|reflexivity]. Qed.

Lemma last_nth {A} (l : list A) d : l <> [] -> nth_error l (List.length l - 1) = Some (List.last l d).
Proof.
  induction l as [|x l IH]; intro N; [congruence|]. destruct l as [|y l]; [reflexivity|].
  cbn [List.length]. replace (S (S (List.length l)) - 1)%nat with (S (List.length (y :: l) - 1)) by (cbn; lia). cbn [nth_error].
  rewrite IH by discriminate. reflexivity.
Qed.

Lemma last_some {A} (l : list A) e d : List.last (map Some l) None = Some e -> List.last l d = e /\ l <> [].
Proof.
  intro E. assert (Nl : l <> []) by (intros ->; discriminate). split; [|exact Nl].
  pose proof (last_nth (map Some l) None) as X. rewrite E in X. pose proof (last_nth l d Nl) as Y.
  assert (N' : map Some l <> []) by (destruct l; [congruence|discriminate]). specialize (X N'). rewrite map_length in X.
  rewrite nth_error_map, Y in X. cbn in X. congruence.
Qed.

Lemma some_last {A} (l : list A) d : l <> [] -> List.last (map Some l) None = Some (List.last l d).
Proof.
  intro Nl. assert (N' : map Some l <> []) by (destruct l; [congruence|discriminate]).
  pose proof (last_nth (map Some l) None N') as X. rewrite map_length, nth_error_map, (last_nth l d Nl) in X. cbn in X. congruence.
Qed.

Lemma follows_len b us L : follows b us L -> List.length L = List.length us.
Proof. induction 1 as [|us L u old new F IH E1 E2 E3]; [reflexivity|]. rewrite !app_length, IH. reflexivity. Qed.

Lemma follows_ts b us L : follows b us L -> map le_ts L = map au_ts us.
Proof. induction 1 as [|us L u old new F IH E1 E2 E3]; [reflexivity|]. rewrite !map_app, IH. reflexivity. Qed.

Lemma follows_mono b us L : follows b us L -> forall i j e e', (i <= j)%nat -> nth_error L i = Some e -> nth_error L j = Some e' -> le_ts e <= le_ts e'.
Proof.
  induction 1 as [|us L u old new F IH E1 E2 E3]; intros i j e e' Hij Ei Ej; [destruct i; discriminate|].
  assert (Hj : (j < List.length (L ++ [{| le_ts := au_ts u; le_root := new |}]))%nat) by (apply nth_error_Some; congruence).
  rewrite app_length in Hj. cbn in Hj. destruct (Nat.lt_ge_cases j (List.length L)) as [Lt|Ge].
  - rewrite nth_error_app1 in Ei, Ej by lia. eauto.
  - assert (j = List.length L) by lia. subst j. rewrite nth_error_app2 in Ej by lia. rewrite Nat.sub_diag in Ej. cbn in Ej. injection Ej as <-. cbn [le_ts].
    destruct (Nat.lt_ge_cases i (List.length L)) as [Li|Gi].
    + rewrite nth_error_app1 in Ei by lia. assert (Nl : L <> []) by (intros ->; cbn in Li; lia).
      etransitivity; [|exact E3]. eapply IH; [|exact Ei|apply last_nth; exact Nl]. lia.
    + rewrite nth_error_app2 in Ei by lia. replace (i - List.length L)%nat with 0%nat in Ei by lia. cbn in Ei. injection Ei as <-. cbn. lia.
Qed.

Lemma stamps_old b us L now x : follows b us L -> x < lenN us -> stamps us now x = tsIn L x.
Proof.
  intros F Hx. unfold stamps, tsIn. pose proof (follows_ts _ _ _ F) as E.
  assert (A : option_map le_ts (nth_error L (N.to_nat x)) = option_map au_ts (nth_error us (N.to_nat x))).
  { rewrite <- !nth_error_map, E. reflexivity. }
  destruct (nth_error us (N.to_nat x)) as [u|] eqn:Eu; [|apply nth_error_None in Eu; unfold lenN in Hx; lia].
  destruct (nth_error L (N.to_nat x)); cbn in A; congruence.
Qed.

Lemma stamps_new us now x : lenN us <= x -> stamps us now x = now.
Proof. intro Hx. unfold stamps. rewrite (proj2 (nth_error_None _ _)); [reflexivity|]. unfold lenN in Hx. lia. Qed.

(** The log of the updates [us] and one more at [now]. *)
Lemma stamps_mono b us L now : follows b us L -> le_ts (List.last L (zero b)) <= now -> forall i j, i <= j <= lenN us -> stamps us now i <= stamps us now j.
Proof.
  intros F Hl i j [Hij Hj]. pose proof (follows_len _ _ _ F) as EL. destruct (N.eq_dec j (lenN us)) as [->|Nj].
  - rewrite (stamps_new us now (lenN us)) by lia. destruct (N.eq_dec i (lenN us)) as [->|Ni]; [rewrite stamps_new; lia|].
    rewrite (stamps_old _ _ _ _ _ F) by lia. unfold tsIn. destruct (nth_error L (N.to_nat i)) as [e|] eqn:Ee; [|lia].
    etransitivity; [|exact Hl]. assert (Nl : L <> []) by (intros ->; destruct (N.to_nat i); discriminate).
    eapply (follows_mono _ _ _ F); [|exact Ee|apply last_nth; exact Nl]. unfold lenN in *. lia.
  - rewrite !(stamps_old _ _ _ _ _ F) by lia. unfold tsIn.
    destruct (nth_error L (N.to_nat i)) as [e|] eqn:Ee; [|lia].
    destruct (nth_error L (N.to_nat j)) as [e'|] eqn:Ee'; [|apply nth_error_None in Ee'; unfold lenN in *; lia].
    eapply (follows_mono _ _ _ F); [|exact Ee|exact Ee']. lia.
Qed.

Lemma stamps_bound us now : Forall (okUpdate hs) us -> now < two64 -> forall i, stamps us now i < two64.
Proof.
  intros F Hn i. unfold stamps. destruct (nth_error us (N.to_nat i)) as [u|] eqn:E; [|exact Hn]. apply nth_error_In in E. exact (proj1 (proj1 (Forall_forall _ _) F _ E)).
Qed.

(** ** The invariant *)

(** The outputs retained are those of the last update, unless its entry is distinguished. *)
Definition retains (us : list auditorUpdate) (L : list logEntry) (s : auditorState) : Prop :=
  exists prev u r, us = prev ++ [u] /\ sortedEntries (au_added u) = true /\ greatestOf (distinguished (lenN us) (tsIn L) (pc_rmw c)) r /\
    as_inserted s = filter (keep r) (map (fun a => (lenN prev, fst a)) (au_added u)) /\
    Forall (fun a : bytes * bytes => List.length (fst a) = N.to_nat hs) (au_added u).

Definition stateOf (us : list auditorUpdate) (b : bytes) (L : list logEntry) (s : auditorState) : Prop :=
  us <> [] /\ follows b us L /\ summarizes s L /\ retains us L s.

Definition inv (us : list auditorUpdate) (st : option auditorState) : Prop :=
  Forall (okUpdate hs) us /\ lenN us < 2 ^ 63 /\
  match st with None => us = [] | Some s => exists b L, stateOf us b L s end.

Lemma inv_size us st : inv us st -> auditedSize st = lenN us.
Proof.
  intros (_ & _ & I). destruct st as [s|]; cbn.
  - destruct I as (b & L & _ & F & (E & _) & _). rewrite E. unfold lenN. now rewrite (follows_len _ _ _ F).
  - subst us. reflexivity.
Qed.

Lemma add64_small x : x < 2 ^ 63 -> add64 x 1 = x + 1.
Proof. intro Hx. unfold add64, w64, two64. change (2 ^ 63) with 9223372036854775808 in Hx. change (2 ^ 64) with 18446744073709551616. apply N.mod_small. lia. Qed.

Lemma combine_map {A B} (g : A -> B) l : combine l (map g l) = map (fun x => (x, g x)) l.
Proof. induction l; cbn; congruence. Qed.

Lemma SFront0 len fr : SFront 0 len fr -> 0 < len.
Proof. intro F. destruct (N.eq_dec len 0) as [->|]; [|lia]. inversion F; subst; vm_compute in *; discriminate. Qed.

(** The timestamp of the next update is not before the last one. *)
Definition late (st : option auditorState) (now : N) : Prop := match st with Some s => as_ts s <= now | None => True end.

Lemma inv_stamps us st now : inv us st -> now < two64 -> late st now ->
  (forall i j, i <= j <= lenN us -> stamps us now i <= stamps us now j) /\ (forall i, i <= lenN us -> stamps us now i < two64).
Proof.
  intros (F & Hl & I) Hn La. split.
  - destruct st as [s|].
    + destruct I as (b & L & _ & Fo & (E1 & (e & E2 & E3 & _) & _) & _). apply (stamps_mono b us L); [exact Fo|].
      destruct (last_some L e (zero b) E2) as [-> _]. rewrite <- E3. exact La.
    + subst us. intros i j [A B]. cbn in B. replace i with 0 by lia. replace j with 0 by lia. lia.
  - intros i _. now apply stamps_bound.
Qed.

Lemma previous_ok us st now : inv us st -> lenN us + 1 < 2 ^ 63 -> now < two64 -> late st now ->
  exists o d xs, auditPrevious c st now = Ok (o, d) /\ greatestOf (precedingDistinguished c us now) o /\
    knows (stamps us now) xs d /\ needed (lenN us) xs.
Proof.
  intros I Hl Hn La. destruct (inv_stamps us st now I Hn La) as [Mono Bd]. pose proof (inv_size _ _ I) as Sz.
  set (n := lenN us) in *. unfold auditPrevious. rewrite Sz.
  assert (G : exists xs, NoDup xs /\ needed n xs /\
    match st with
    | None => Ok []
    | Some s => let* front := frontier n in
                if negb (Nat.eqb (List.length front) (List.length (as_timestamps s))) then Fail "unexpected number of timestamps in auditor state"
                else Ok (map (fun p => (fst p, {| le_ts := snd p; le_root := [] |})) (combine front (as_timestamps s)))
    end = Ok (map (fun x => (x, {| le_ts := stamps us now x; le_root := [] |})) (removelast xs)) /\ xs = removelast xs ++ [n]).
  { destruct I as (F & _ & I). destruct st as [s|].
    - destruct I as (b & L & Nu & Fo & (E1 & (e & E2 & E3 & _) & E4 & (front & Sf & Et)) & _).
      assert (ELn : lenN L = n) by (unfold n, lenN; now rewrite (follows_len _ _ _ Fo)). rewrite ELn in *.
      destruct (c10_frontier n) as (fr & Ef & Sf').
      { pose proof (SFront0 _ _ Sf). change (2 ^ 63) with 9223372036854775808 in Hl. change (2 ^ 64) with 18446744073709551616. lia. }
      rewrite (SFront_fun _ _ _ Sf' _ Sf) in Ef. exists (front ++ [n]). rewrite removelast_last.
      pose proof (SFront_bounds _ _ _ Sf) as Fb. split; [|split; [|split; [|reflexivity]]].
      + rewrite <- (rev_involutive (front ++ [n])). apply NoDup_rev. rewrite rev_app_distr. cbn. constructor.
        * rewrite <- in_rev. intro In'. apply (proj1 (Forall_forall _ _) Fb) in In'. lia.
        * apply NoDup_rev. exact (SFront_NoDup _ _ _ Sf).
      + split; [apply in_or_app; right; now left|]. split.
        * intros x Ix. apply in_app_or in Ix. destruct Ix as [Ix|[<-|[]]]; [|lia]. apply (proj1 (Forall_forall _ _) Fb) in Ix. lia.
        * intros f0 Sf0 x Ix. rewrite (SFront_fun _ _ _ Sf0 _ Sf) in Ix. apply in_or_app. now left.
      + rewrite Ef. cbn [bind]. rewrite Et, map_length, Nat.eqb_refl. cbn [negb]. rewrite combine_map, map_map. cbn [fst snd]. f_equal. apply map_ext_in.
        intros x Ix. apply (proj1 (Forall_forall _ _) Fb) in Ix. rewrite (stamps_old b us L now x Fo) by (fold n; lia). reflexivity.
    - assert (En : n = 0) by (unfold n; rewrite I; reflexivity). exists [n]. split; [repeat constructor; intros []|]. split; [|split; reflexivity].
      split; [now left|]. split; [intros x [<-|[]]; lia|]. intros f0 Sf0. apply SFront0 in Sf0. lia. }
  destruct G as (xs & ND & Nd & E & Exs). rewrite E. cbn [bind].
  assert (Eadd : (map (fun x => (x, {| le_ts := stamps us now x; le_root := [] |})) (removelast xs) ++ [(n, {| le_ts := now; le_root := [] |})]) =
     map (fun x => (x, {| le_ts := stamps us now x; le_root := [] |})) xs).
  { rewrite Exs at 2. rewrite map_app. cbn [map]. rewrite (stamps_new us now n) by (unfold n; lia). reflexivity. }
  rewrite Eadd. destruct (retained_known (stamps us now) xs ND) as (d & Ed & K).
  { intros x y Ix Iy Hxy. destruct Nd as (_ & B & _). apply Mono. specialize (B y Iy). lia. }
  rewrite Ed. rewrite add64_small by lia.
  destruct (audit_previous c (stamps us now) n Hl Mono Bd xs d Nd K) as (o & l & Er & Go). rewrite Er.
  exists o, d, xs. split; [reflexivity|]. split; [exact Go|]. split; [exact K|exact Nd].
Qed.

Lemma entryHash e : logEntryHash H e = Ok (f (match logEntryMarshal e with Ok r => r | _ => [] end)).
Proof. unfold logEntryHash, logEntryMarshal. reflexivity. Qed.

Lemma entryHash_sized e h : logEntryHash H e = Ok h -> lenN h = hs.
Proof. rewrite entryHash. generalize (match logEntryMarshal e with Ok r => r | _ => [] end). intros x E. injection E as <-. apply Hf. Qed.

Lemma tsIn_stamps b us L u new x : follows b us L -> x <= lenN us ->
  tsIn (L ++ [{| le_ts := au_ts u; le_root := new |}]) x = stamps us (au_ts u) x.
Proof.
  intros F Hx. pose proof (follows_len _ _ _ F) as EL. destruct (N.eq_dec x (lenN us)) as [->|Nx].
  - rewrite stamps_new by lia. unfold tsIn. rewrite nth_error_app2 by (unfold lenN; lia). replace (N.to_nat (lenN us) - List.length L)%nat with 0%nat by (unfold lenN; lia). reflexivity.
  - rewrite (stamps_old _ _ _ _ _ F) by lia. unfold tsIn. rewrite nth_error_app1 by (unfold lenN in *; lia). reflexivity.
Qed.

Lemma update_ok us st u d xs old new : inv us st -> lenN us + 1 < 2 ^ 63 -> okUpdate hs u -> late st (au_ts u) ->
  sortedEntries (au_added u) = true ->
  EvaluateBeforeAfter H (N.to_nat hs) (au_added u) (au_removed u) (au_proof u) = Ok (old, new) ->
  match st with Some s => old = as_prefix s | None => True end ->
  knows (stamps us (au_ts u)) xs d -> needed (lenN us) xs ->
  exists s', updateState H c st d (au_added u) {| le_ts := au_ts u; le_root := new |} = Ok s' /\ inv (us ++ [u]) (Some s') /\
    as_sig s' = None /\ as_prefix s' = new /\ as_ts s' = au_ts u.
Proof.
  intros I Hl Ou La So Ev Eo K Nd. destruct (inv_stamps us st (au_ts u) I (proj1 Ou) La) as [Mono Bd]. pose proof (inv_size _ _ I) as Sz.
  unfold updateState. rewrite Sz. set (n := lenN us) in *.
  assert (G : exists b L leaves, follows b us L /\ (st = None -> b = old) /\ old = le_root (List.last L (zero b)) /\ le_ts (List.last L (zero b)) <= au_ts u /\
    Forall2 (fun e h => logEntryHash H e = Ok h) L leaves /\ lenN leaves = n /\
    (lenN leaves = 0 \/ FullValues H leaves (lenN leaves) (match st with Some s => as_subtrees s | None => [] end))).
  { destruct I as (F & _ & I). destruct st as [s|].
    - destruct I as (b & L & Nu & Fo & (E1 & (e & E2 & E3 & E4) & (leaves & F2 & FV) & _) & _).
      assert (ELn : lenN L = n) by (unfold n, lenN; now rewrite (follows_len _ _ _ Fo)).
      assert (ELv : lenN leaves = n) by (rewrite <- ELn; symmetry; exact (LogTreeProofs.Forall2_len _ _ _ F2)).
      destruct (last_some L e (zero b) E2) as [El Nl].
      exists b, L, leaves. split; [exact Fo|]. split; [discriminate|]. rewrite El, <- E4. split; [exact Eo|]. split; [rewrite <- E3; exact La|].
      split; [exact F2|]. split; [exact ELv|]. right. rewrite ELv, <- ELn. exact FV.
    - subst us. exists old, [], []. split; [constructor|]. split; [reflexivity|]. split; [reflexivity|]. split; [cbn; lia|]. split; [constructor|]. split; [reflexivity|]. now left. }
  destruct G as (b & L & leaves & Fo & Hb & Eold & Hlast & F2 & ELv & FV).
  assert (ELn : lenN L = n) by (unfold n, lenN; now rewrite (follows_len _ _ _ Fo)).
  rewrite entryHash. set (e := {| le_ts := au_ts u; le_root := new |}) in *.
  set (leaf := f (match logEntryMarshal e with Ok r => r | _ => [] end)). cbn [bind].
  assert (Sl : Forall (fun x : bytes => lenN x = hs) (leaves ++ [leaf])).
  { apply Forall_app. split; [|repeat constructor; apply Hf]. clear - F2 Hf. induction F2 as [|x y L leaves E F2 IH]; constructor; auto.
    exact (entryHash_sized _ _ E). }
  change (2 ^ 63) with two63 in Hl.
  destruct (logAppend_spec H hs (full_sized f hs Hf) Hhs leaves (match st with Some s => as_subtrees s | None => [] end) leaf) as (fs' & Ea & FV').
  { intro x. exists (f x). reflexivity. } { lia. } { exact Sl. } { exact FV. }
  rewrite ELv in Ea. rewrite Ea. cbn [bind]. change two63 with (2 ^ 63) in *. rewrite add64_small by lia.
  destruct (c10_frontier (n + 1)) as (fr & Ef & Sf).
  { change (2 ^ 63) with 9223372036854775808 in Hl. change (2 ^ 64) with 18446744073709551616. lia. }
  rewrite Ef. cbn [bind].
  assert (Kfr : forall x, In x fr -> In x xs).
  { intros x Ix. destruct Nd as (A & B & C). destruct (N.eq_dec n 0) as [N0|N0].
    - pose proof (SFront_bounds _ _ _ Sf) as Fb. apply (proj1 (Forall_forall _ _) Fb) in Ix. replace x with n by lia. exact A.
    - destruct (SFront_prev _ _ _ Sf ltac:(lia)) as (l' & Sl' & Il). replace (n + 1 - 1) with n in Sl' by lia.
      destruct (Il x Ix) as [->|Ix']; [replace (0 + (n + 1) - 1) with n by lia; exact A|]. eapply C; eauto. }
  rewrite (timestamps_known (stamps us (au_ts u)) xs d K fr [] Kfr). cbn [bind app].
  destruct (audit_rightmost c (stamps us (au_ts u)) n Hl Mono Bd xs d Nd K) as (r & l & Er & Gr). rewrite Er. cbn [fst bind].
  eexists. split; [reflexivity|]. split; [|cbn; auto]. split; [|split].
  - apply Forall_app. split; [exact (proj1 I)|]. repeat constructor; apply Ou.
  - rewrite lenN_snoc. fold n. exact Hl.
  - exists b, (L ++ [e]). split; [intro Q; apply app_eq_nil in Q; destruct Q; discriminate|]. split.
    { apply fo_next with old; auto. }
    split.
    + split; [|split; [|split]].
      * cbn [as_size]. rewrite lenN_snoc, ELn. reflexivity.
      * exists e. rewrite map_app. cbn [map]. rewrite last_snoc. cbn. auto.
      * exists (leaves ++ [leaf]). split; [apply Forall2_app; [exact F2|repeat constructor]|]. cbn [as_subtrees]. rewrite lenN_snoc, ELn, <- ELv, <- (lenN_snoc leaves leaf). exact FV'.
      * exists fr. rewrite lenN_snoc, ELn. split; [exact Sf|]. cbn [as_timestamps]. apply map_ext_in. intros x Ix.
        pose proof (SFront_bounds _ _ _ Sf) as Fb. apply (proj1 (Forall_forall _ _) Fb) in Ix. symmetry. apply (tsIn_stamps b); [exact Fo|]. fold n. lia.
    + exists us, u, r. split; [reflexivity|]. split; [exact So|]. split; [|split].
      * rewrite lenN_snoc. fold n. assert (X : forall y, distinguished (n + 1) (stamps us (au_ts u)) (pc_rmw c) y <-> distinguished (n + 1) (tsIn (L ++ [e])) (pc_rmw c) y).
        { intro y. unfold distinguished. replace (tsIn (L ++ [e]) (n + 1 - 1)) with (stamps us (au_ts u) (n + 1 - 1)).
          2:{ symmetry. apply (tsIn_stamps b); [exact Fo|fold n; lia]. }
          split; intro D; (eapply DIn_ext; [exact D|lia|]); intros x Hx; [symmetry|]; apply (tsIn_stamps b); auto; fold n; lia. }
        destruct r as [r|]; cbn in *; [destruct Gr as [G1 G2]; split; [now apply X|intros y Dy; apply G2; now apply X]|intros y Dy; apply (Gr y); now apply X].
      * cbn [as_inserted]. rewrite merge_nil. reflexivity.
      * apply (beforeAfter_keys f (N.to_nat hs)) in Ev. apply Forall_app in Ev. exact (proj1 Ev).
Qed.

End Auditor.
