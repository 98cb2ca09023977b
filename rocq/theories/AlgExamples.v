(** Concrete logs and providers used by the properties of the search and monitoring algorithms. *)
From Verif Require Import Base BaseProofs LogMathModel TransMathModel TransMathSpec LaddersModel CodecModel AlgModel AlgSpec AlgProofs AlgProofs2 AlgProofs3 AlgProofs4 AlgProofs5.

Definition exConfig (ahead behind window : N) (life : N) : pubConfig :=
  {| pc_suite := 1; pc_hs := 32; pc_openSize := 16; pc_vrfSize := 80; pc_mode := 1; pc_sigKey := []; pc_vrfKey := []; pc_leafKey := [];
     pc_maxAuditorLag := 0; pc_auditorStart := 0; pc_auditorKey := [];
     pc_maxAhead := ahead; pc_maxBehind := behind; pc_rmw := window; pc_maxLife := life |}.

(** A provider that cannot find any timestamp. *)
Definition noTimestamps : provider unit := {|
  pTs s _ := (Fail "unable to find timestamp", s);
  pLadder s _ _ _ := (Ok 0%Z, s); pMon s _ _ := (Ok tt, s); pIncl s _ _ := (Ok tt, s);
  pStop _ _ _ := false; pTrack s _ _ _ _ := s |}.

(** Three entries, the last one much younger; versions 0 and 1 both published at the last entry. *)
Definition lateLog : hlog := {| h_n := 3; h_ts := fun x => if x <? 2 then 1000 else 1100; h_g := fun x => if x <? 2 then (-1)%Z else 1%Z |}.

Lemma lateLog_ok : okLog lateLog.
Proof.
  unfold okLog, lateLog; cbn [h_n h_ts h_g]. split; [split; [discriminate|reflexivity]|].
  split; [intros x y H; destruct (N.ltb_spec x 2), (N.ltb_spec y 2); lia|].
  split; [intros x H; destruct (N.ltb_spec x 2); reflexivity|].
  split; [intros x y H; destruct (N.ltb_spec x 2), (N.ltb_spec y 2); lia|].
  intros x H; destruct (N.ltb_spec x 2); lia.
Qed.

Lemma c22_refuted : exists c L ver t,
  okLog L /\ (Z.of_N ver <= h_g L t)%Z /\ t < h_n L /\
  isExpired (pc_maxLife c) (h_ts L t) (h_ts L (h_n L - 1)) = false /\
  distinguished (h_n L) (h_ts L) (pc_rmw c) t /\
  (forall y, y < t -> isExpired (pc_maxLife c) (h_ts L y) (h_ts L (h_n L - 1)) = true \/ (h_g L y < Z.of_N ver)%Z) /\
  result (run (honest L) (fixedVersionSearch c ver (h_n L)) 0) = Fail ErrLabelExpired.
Proof.
  exists (exConfig 1000 1000 10 50), lateLog, 0, 2.
  split; [exact lateLog_ok|]. split; [discriminate|]. split; [reflexivity|]. split; [reflexivity|]. split.
  { apply DI_right; [discriminate|reflexivity|]. apply DI_here. discriminate. }
  split; [|vm_compute; reflexivity].
  intros y Hy. right. cbn. destruct (N.ltb_spec y 2); lia.
Qed.

(** Four entries, nothing distinguished; version 1 until the last entry, which has version 2. *)
Definition flatLog : hlog := {| h_n := 4; h_ts := fun _ => 5; h_g := fun x => if x <? 3 then 1%Z else 2%Z |}.

Lemma flatLog_ok : okLog flatLog.
Proof.
  unfold okLog, flatLog; cbn [h_n h_ts h_g]. split; [split; [discriminate|reflexivity]|].
  split; [intros; lia|]. split; [intros; reflexivity|].
  split; [intros x y H; destruct (N.ltb_spec x 3), (N.ltb_spec y 3); lia|].
  intros x H; destruct (N.ltb_spec x 3); lia.
Qed.

Lemma flatLog_ts : timestampsOf (honest flatLog) 4 (h_ts flatLog).
Proof.
  destruct flatLog_ok as (_ & A & B & _). split; [exact A|]. split; [exact B|].
  intros s x t s' Hx H. cbn in H. apply N.ltb_lt in Hx. rewrite Hx in H. injection H as <- <-. reflexivity.
Qed.

Definition flatMonitor (ptrs : list (N * N)) : monitor := {| mo_rightmost := 5; mo_size := 4; mo_contact := Some ptrs; mo_owner := None |}.

Lemma nothing_distinguished y : ~ distinguished 4 (h_ts flatLog) 10 y.
Proof. intro H. apply DIn_bound in H. cbn in H. lia. Qed.

Lemma c59_refuted : exists c L ptrs0 x v m' s' l,
  okLog L /\ mget ptrs0 x = Some v /\ (forall y v, mget ptrs0 y = Some v -> y < h_n L /\ h_g L y = Z.of_N v) /\
  run (honest L) (contactMonitor c {| mo_rightmost := h_ts L (h_n L - 1); mo_size := h_n L; mo_contact := Some ptrs0; mo_owner := None |}) 0 = (Ok m', s', l) /\
  (forall ptrs y, mo_contact m' = Some ptrs -> mget ptrs y <> Some v) /\
  (forall d, ~ distinguished (h_n L) (h_ts L) (pc_rmw c) d) /\
  (forall y v', In (EvMon y v' (Ok tt)) l -> v' < v).
Proof.
  exists (exConfig 1000 1000 10 0), flatLog, [(0, 1); (3, 2)], 3, 2.
  eexists _, _, _. split; [exact flatLog_ok|]. split; [reflexivity|]. split.
  { intros y v H. cbn in H. destruct (N.eqb_spec y 0) as [->|]; [injection H as <-; cbn; lia|].
    destruct (N.eqb_spec y 3) as [->|]; [injection H as <-; cbn; lia|discriminate]. }
  split; [vm_compute; reflexivity|]. split.
  { intros ptrs y H. injection H as <-. cbn.
    repeat match goal with |- context [if ?b then _ else _] => destruct b end; discriminate. }
  split; [exact nothing_distinguished|].
  cbn. intros y v' [H|[H|[]]]; injection H as <- <-; reflexivity.
Qed.

Lemma c19_refuted : exists c n ver S (P : provider S) s s' l,
  run P (greatestVersionSearch c ver n) s = (Ok 0, s', l) /\ Forall (fun e => exists x m, e = EvTs x (Fail m)) l /\ 0 < ver.
Proof.
  exists (exConfig 0 0 0 0), 7, 5, unit, noTimestamps, tt, tt. eexists. split; [vm_compute; reflexivity|]. split; [|reflexivity].
  repeat constructor. eexists _, _. reflexivity.
Qed.

Lemma honest_tame L : tame (honest L).
Proof. repeat split; intros; cbn; destruct (_ <? _); cbn; auto; try destruct (_ <=? _)%Z; cbn; auto; try destruct (forallb _ _); cbn; auto. Qed.
