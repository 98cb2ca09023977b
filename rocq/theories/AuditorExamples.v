(** Concrete auditors for the examples and refutations in AuditorProperties.v. *)
From Verif Require Import Base BaseProofs LogTreeModel LogTreeSpec PrefixModel PrefixSpec PrefixExamples CodecModel CodecSpec AlgModel AlgSpec AlgExamples
  HandleModel StoreModel MutateModel MutateSpec MutateProofs5 MutateExamples AuditorModel AuditorSpec AuditorProofs3 AuditorProofs4 AuditorProofs5.
Open Scope N_scope.
Local Open Scope list_scope.

(** A configuration with a third-party auditor; entries that close a span of 2500 ms are distinguished. *)
Definition ac : pubConfig :=
  {| pc_suite := 1; pc_hs := 32; pc_openSize := 16; pc_vrfSize := 80; pc_mode := 3; pc_sigKey := []; pc_vrfKey := []; pc_leafKey := [];
     pc_maxAuditorLag := 0; pc_auditorStart := 0; pc_auditorKey := [x07];
     pc_maxAhead := 1000; pc_maxBehind := 1000; pc_rmw := 2500; pc_maxLife := 0 |}.
Definition asgn (tbs : bytes) : res bytes := Ok (toy32 (x01 :: tbs)).
Definition a0 : auditor := {| a_state := None; a_stored := None |}.
Definition adoP (a : auditor) (u : auditorUpdate) := Process (full toy32) 32 ac a u.
Definition adoC (put : res unit) (a : auditor) := Commit (full toy32) 32 ac asgn put a.
Notation auditedX := (audited (full toy32) 32 ac asgn [x07]).

(** Updates made with the prefix tree alone: keys are added one at a time. *)
Definition akey (b : byte) : bytes := b :: repeat x00 31.
Definition acom : bytes := repeat x01 32.
Definition upd (now : N) (ver : N) (st : store) (add : list (bytes * bytes)) (rem : list bytes) : auditorUpdate * store :=
  match mutate (full toy32) 32 st ver add rem with
  | Ok (_, proof, coms, st') => ({| au_ts := now; au_added := add; au_removed := combine rem coms; au_proof := proof |}, st')
  | _ => ({| au_ts := 0; au_added := []; au_removed := []; au_proof := {| p_results := []; p_elements := [] |} |}, st)
  end.
Definition v0 := Eval vm_compute in upd 10000 0 [] [(akey x40, acom)] [].
Definition v1 := Eval vm_compute in upd 10000 1 (snd v0) [(akey x60, acom)] [].
Definition v2 := Eval vm_compute in upd 10000 2 (snd v1) [(akey x80, acom)] [].
Definition v3 := Eval vm_compute in upd 10000 3 (snd v2) [(akey xc0, acom)] [].
Definition v4 := Eval vm_compute in upd 10000 4 (snd v3) [(akey x00, acom)] [].
Definition v5 := Eval vm_compute in upd 10000 5 (snd v4) [(akey xa0, acom)] [].
Definition v6 := Eval vm_compute in upd 10000 6 (snd v5) [] [akey x00].
Definition us6 := [fst v0; fst v1; fst v2; fst v3; fst v4; fst v5].
Definition a1 : auditor := Eval vm_compute in snd (adoP a0 (fst v0)).
Definition a2 : auditor := Eval vm_compute in snd (adoP a1 (fst v1)).
Definition a3 : auditor := Eval vm_compute in snd (adoP a2 (fst v2)).
Definition a4 : auditor := Eval vm_compute in snd (adoP a3 (fst v3)).
Definition a5 : auditor := Eval vm_compute in snd (adoP a4 (fst v4)).
Definition a6 : auditor := Eval vm_compute in snd (adoP a5 (fst v5)).

Ltac okUpd := split; [reflexivity|repeat constructor].
Ltac auStep prev := eapply au_accept; [exact prev|okUpd|reflexivity|vm_compute; reflexivity].

Lemma a0_audited : auditedX [] [] a0.
Proof. apply au_new. reflexivity. Qed.
Lemma a1_audited : auditedX [fst v0] [] a1.
Proof. change [fst v0] with ([] ++ [fst v0]). auStep a0_audited. Qed.
Lemma a2_audited : auditedX [fst v0; fst v1] [] a2.
Proof. change [fst v0; fst v1] with ([fst v0] ++ [fst v1]). auStep a1_audited. Qed.
Lemma a3_audited : auditedX [fst v0; fst v1; fst v2] [] a3.
Proof. change [fst v0; fst v1; fst v2] with ([fst v0; fst v1] ++ [fst v2]). auStep a2_audited. Qed.
Lemma a4_audited : auditedX [fst v0; fst v1; fst v2; fst v3] [] a4.
Proof. change [fst v0; fst v1; fst v2; fst v3] with ([fst v0; fst v1; fst v2] ++ [fst v3]). auStep a3_audited. Qed.
Lemma a5_audited : auditedX [fst v0; fst v1; fst v2; fst v3; fst v4] [] a5.
Proof. change [fst v0; fst v1; fst v2; fst v3; fst v4] with ([fst v0; fst v1; fst v2; fst v3] ++ [fst v4]). auStep a4_audited. Qed.
Lemma a6_audited : auditedX us6 [] a6.
Proof. change us6 with ([fst v0; fst v1; fst v2; fst v3; fst v4] ++ [fst v5]). auStep a5_audited. Qed.

Lemma toyLen x : lenN (toy32 x) = 32. Proof. reflexivity. Qed.

Lemma a6_preceding y : precedingDistinguished ac us6 10000 y -> y <= 3.
Proof.
  intro P. destruct (audited_inv toy32 32 toyLen ltac:(reflexivity) ac asgn [x07] _ _ _ a6_audited) as [I _].
  destruct (previous_ok toy32 32 toyLen ltac:(reflexivity) ac asgn [x07] us6 (a_state a6) 10000 I ltac:(reflexivity) ltac:(reflexivity) ltac:(vm_compute; discriminate))
    as (o & d & xs & E & G & _).
  assert (Eo : o = Some 3).
  { transitivity (match auditPrevious ac (a_state a6) 10000 with Ok p => fst p | _ => None end); [rewrite E; reflexivity|vm_compute; reflexivity]. }
  rewrite Eo in G. destruct G as [_ G]. exact (G y P).
Qed.

Lemma a6_distinguished : precedingDistinguished ac us6 10000 3.
Proof.
  destruct (audited_inv toy32 32 toyLen ltac:(reflexivity) ac asgn [x07] _ _ _ a6_audited) as [I _].
  destruct (previous_ok toy32 32 toyLen ltac:(reflexivity) ac asgn [x07] us6 (a_state a6) 10000 I ltac:(reflexivity) ltac:(reflexivity) ltac:(vm_compute; discriminate))
    as (o & d & xs & E & G & _).
  assert (Eo : o = Some 3).
  { transitivity (match auditPrevious ac (a_state a6) 10000 with Ok p => fst p | _ => None end); [rewrite E; reflexivity|vm_compute; reflexivity]. }
  rewrite Eo in G. destruct G as [G _]. exact G.
Qed.

Lemma c55_refuted : exists f hs c sign key us ps a u k a',
  audited (full f) hs c sign key us ps a /\ okUpdate hs u /\ removesRecent c us u k /\ Process (full f) hs c a u = (Ok tt, a').
Proof.
  exists toy32, 32, ac, asgn, [x07], us6, [], a6, (fst v6), (akey x00). eexists. split; [exact a6_audited|]. split; [okUpd|]. split.
  - split; [left; reflexivity|]. exists 4. split; [exists (fst v4); split; [reflexivity|left; reflexivity]|].
    intros y P. change (au_ts (fst v6)) with 10000 in P. apply a6_preceding in P. lia.
  - vm_compute. reflexivity.
Qed.

(** With one entry less in between, the same removal is refused. *)
Definition v5' := Eval vm_compute in upd 10000 5 (snd v4) [] [akey x00].
Lemma c55_example : auditedX [fst v0; fst v1; fst v2; fst v3; fst v4] [] a5 /\ okUpdate 32 (fst v5') /\ In (akey x00) (map fst (au_removed (fst v5'))) /\
  fst (adoP a5 (fst v5')) = Fail "prefix tree leaf is not eligible for removal"%string.
Proof. split; [exact a5_audited|]. split; [okUpd|]. split; [left; reflexivity|]. vm_compute. reflexivity. Qed.

(** ** C56: an auditor that starts with the second update *)
Definition incl0 := Eval vm_compute in match search (full toy32) 32 (snd v1) 2 [akey x40] with Ok (p, _) => p | _ => {| p_results := []; p_elements := [] |} end.
Lemma c56_refuted : exists f hs c sign key a u a' s k com proof,
  audited (full f) hs c sign key [] [] a /\ okUpdate hs u /\ Process (full f) hs c a u = (Ok tt, a') /\ a_state a' = Some s /\
  ~ In k (map fst (au_added u)) /\ Forall (fun r => rincl r = true) (p_results proof) /\
  Evaluate (full f) (N.to_nat hs) [(k, com)] proof = Ok (as_prefix s).
Proof.
  exists toy32, 32, ac, asgn, [x07], a0, (fst v1). do 2 eexists. exists (akey x40), acom, incl0.
  split; [apply au_new; reflexivity|]. split; [okUpd|]. split; [vm_compute; reflexivity|]. split; [reflexivity|].
  split; [vm_compute; intros [Q|[]]; discriminate|]. split; [repeat constructor|]. vm_compute. reflexivity.
Qed.

(** ** C69: PutState fails once *)
Lemma c69_refuted : exists f hs c sign key us ps a m a1 a2 th,
  audited (full f) hs c sign key us ps a /\ Commit (full f) hs c sign (Fail m) a = (Fail m, a1) /\
  Commit (full f) hs c sign (Ok tt) a1 = (Ok th, a2) /\ a_stored a2 = None.
Proof.
  exists toy32, 32, ac, asgn, [x07], [fst v0], [], a1, "disk full"%string. do 3 eexists. split; [exact a1_audited|].
  split; [vm_compute; reflexivity|]. split; [vm_compute; reflexivity|reflexivity].
Qed.
Lemma c69_example : exists th a2, auditedX [fst v0] [] a1 /\ adoC (Ok tt) a1 = (Ok th, a2) /\ (forall s, a_state a1 = Some s -> as_sig s = None).
Proof. do 2 eexists. split; [exact a1_audited|]. split; [vm_compute; reflexivity|]. intros s E. unfold a1 in E. cbn [a_state] in E. injection E as <-. reflexivity. Qed.

(** ** C54: an auditor that commits, goes on, is restarted and goes on differently *)
Definition a1c : auditor := Eval vm_compute in snd (adoC (Ok tt) a1).
Definition a1r : auditor := Eval vm_compute in match NewAuditor 32 ac [x07] (a_stored a1c) with Ok a => a | _ => a0 end.
Definition w1 := Eval vm_compute in upd 12000 1 (snd v0) [(akey xc0, acom)] [].
Definition a2w : auditor := Eval vm_compute in snd (adoP a1r (fst w1)).
Definition a2c : auditor := Eval vm_compute in snd (adoP a1c (fst v1)).
Lemma a1c_audited : auditedX [fst v0] [fst v0] a1c.
Proof. eapply au_store with (ps := []) (put := Ok tt) (a := a1); [exact a1_audited|vm_compute; reflexivity|discriminate]. Qed.
Lemma a2c_audited : auditedX [fst v0; fst v1] [fst v0] a2c.
Proof. change [fst v0; fst v1] with ([fst v0] ++ [fst v1]). auStep a1c_audited. Qed.
Lemma a1r_audited : auditedX [fst v0] [fst v0] a1r.
Proof. eapply au_restart; [exact a2c_audited|vm_compute; reflexivity]. Qed.
Lemma c54_example : auditedX [fst v0; fst w1] [fst v0] a2w /\ exists s, a_state a2w = Some s /\ as_size s = 2 /\ as_ts s = 12000.
Proof.
  split; [|eexists; split; [reflexivity|]; split; reflexivity].
  change [fst v0; fst w1] with ([fst v0] ++ [fst w1]). auStep a1r_audited.
Qed.

(** ** C71: a server and an auditor side by side *)
Definition mdo (t : tree) (r : request) := Mutate (full toy32) 32 ac xvrf xsign (rq_opening r) (rq_order r) (rq_now r) t (rq_add r) (rq_remove r).
Definition m1r := Eval vm_compute in mdo empty0 q1.
Definition m2r := Eval vm_compute in mdo (snd m1r) q2.
Definition upOf (r : res auditorUpdate * tree) : auditorUpdate :=
  match fst r with Ok u => u | _ => {| au_ts := 0; au_added := []; au_removed := []; au_proof := {| p_results := []; p_elements := [] |} |} end.
Definition b1 := Eval vm_compute in snd (adoP a0 (upOf m1r)).
Definition b2 := Eval vm_compute in snd (adoP b1 (upOf m2r)).
Notation trackedX := (tracked (full toy32) 32 ac xvrf xsign asgn [x07] xLs).
Lemma b0_tracked : trackedX empty0 [] a0.
Proof. apply tr_new; reflexivity. Qed.
Lemma b1_tracked : trackedX (snd m1r) [q1] b1.
Proof.
  change [q1] with ([] ++ [q1]).
  eapply tr_mutate with (u := upOf m1r); [exact b0_tracked|moderately|discriminate|reflexivity|vm_compute; reflexivity|vm_compute; reflexivity].
Qed.
Lemma b2_tracked : trackedX (snd m2r) [q1; q2] b2.
Proof.
  change [q1; q2] with ([q1] ++ [q2]).
  eapply tr_mutate with (u := upOf m2r); [exact b1_tracked|moderately|discriminate|reflexivity|vm_compute; reflexivity|vm_compute; reflexivity].
Qed.
Lemma c71_example : trackedX (snd m2r) [q1; q2] b2 /\
  (forall s, a_state b2 = Some s -> as_sig s = None) /\ exists th a', adoC (Ok tt) b2 = (Ok th, a').
Proof.
  split; [exact b2_tracked|]. split; [intros s E; unfold b2 in E; cbn [a_state] in E; injection E as <-; reflexivity|do 2 eexists; vm_compute; reflexivity].
Qed.

(** ** C73: a stored state of size zero *)
Definition zeroState : bytes := repeat x00 18.
Lemma c73_refuted : exists raw m, newAuditorState 32 raw = Panic m.
Proof. exists zeroState. eexists. vm_compute. reflexivity. Qed.

(** ** C74: a mutation that adds 256 versions of one label *)
Definition q256 := xreq [la] 1000 (repeat (la, xv x01) 256) [].
Lemma c74_refuted : exists f hs c vrf sign Ls t r u t' m,
  runs (full f) hs c vrf sign Ls t [] /\ moderate Ls 0 noLabels r /\
  Mutate (full f) hs c vrf sign (rq_opening r) (rq_order r) (rq_now r) t (rq_add r) (rq_remove r) = (Ok u, t') /\
  auditorUpdateMarshal u = Fail m.
Proof.
  assert (M : moderate xLs 0 noLabels q256).
  { split; [split; [repeat constructor; cbn; tauto|]|].
    - intro l. cbn [rq_order rq_add rq_remove q256 xreq]. split; [intros [<-|[]]; left; apply in_map_iff; exists (la, xv x01); split; [reflexivity|left; reflexivity]|].
      intros [I|[]]. apply in_map_iff in I. destruct I as (p & <- & I). apply repeat_spec in I. subst p. left. reflexivity.
    - split; [cbn; tauto|]. split; [reflexivity|]. split; [reflexivity|]. split; [|vm_compute; reflexivity].
      intros l [<-|[]]. vm_compute. reflexivity. }
  assert (R : runs (full toy32) 32 ac xvrf xsign xLs empty0 []) by (apply run_new; reflexivity).
  destruct (run_describes toy32 32 toyLen ltac:(split; [reflexivity|discriminate]) ac xvrf xLs x_vrfGood xsign (fun _ _ => True) (fun _ _ _ => Logic.I) empty0 [] R) as (E & T & Q1 & _).
  destruct E as [|e E]; [|discriminate].
  destruct (mutate_progress toy32 32 toyLen ltac:(split; [reflexivity|discriminate]) ac xvrf xLs x_vrfGood xsign (fun _ _ => True) (fun _ _ _ => Logic.I) empty0 [] q256 T M) as (u & t' & K).
  - left. discriminate.
  - apply Forall_forall. intros p I. apply repeat_spec in I. subst p. split; [reflexivity|exact Logic.I].
  - exact x_signs.
  - eexists. reflexivity.
  - discriminate.
  - intros l [].
  - assert (P : forall r, moderate xLs 0 noLabels r -> rq_remove r = [] -> doMutate toy32 32 ac xvrf xsign r empty0 = (Ok u, t') -> 255 < lenN (rq_add r) ->
      exists m, Mutate (full toy32) 32 ac xvrf xsign (rq_opening r) (rq_order r) (rq_now r) empty0 (rq_add r) (rq_remove r) = (Ok u, t') /\ auditorUpdateMarshal u = Fail m).
    { intros r M' E' K' L'. destruct (c74_large toy32 32 toyLen ltac:(split; [reflexivity|discriminate]) ac xvrf xLs x_vrfGood xsign xsign (fun _ _ => True) (fun _ _ _ => Logic.I) [] empty0 [] r u t' R M' E' K' L') as [m Q]. exists m. split; [exact K'|exact Q]. }
    destruct (P q256 M eq_refl K ltac:(vm_compute; reflexivity)) as [m Q].
    exists toy32, 32, ac, xvrf, xsign, xLs, empty0, q256, u, t', m. split; [exact R|]. split; [exact M|]. exact Q.
Qed.
