(** An honest removal that puts the auditor off the track: the leaf next to the one removed is not part of the proof, so the
    server moves it up and the auditor does not. *)
From Verif Require Import Base BaseProofs LogTreeModel LogTreeSpec PrefixModel PrefixSpec PrefixExamples CodecModel CodecSpec AlgModel AlgSpec AlgExamples
  HandleModel StoreModel MutateModel MutateSpec MutateProofs5 MutateExamples AuditorModel AuditorSpec AuditorProofs3 AuditorProofs4 AuditorProofs5 AuditorExamples.
Open Scope N_scope.
Local Open Scope list_scope.

Definition m3r := Eval vm_compute in mdo (snd m2r) q3.
Definition b3 := Eval vm_compute in snd (adoP b2 (upOf m3r)).
Definition q4 := xreq [lc] 4000 [(lc, xv x09)] [].
Definition m4r := Eval vm_compute in mdo (snd m3r) q4.
Definition e3 : logEntry := Eval vm_compute in
  match mget (x_entries (durable (t_tx (snd m3r)))) 2 with Some raw => {| le_ts := 3000; le_root := skipn 8 raw |} | None => {| le_ts := 0; le_root := [] |} end.

Lemma c71_refuted : exists f hs c vrf sign asign key Ls t rs a r u t' a' s raw e r2 u2 t2 m,
  (forall x, lenN (f x) = hs) /\ 0 < hs <= 32 /\ vrfGood hs vrf Ls /\
  tracked (full f) hs c vrf sign asign key Ls t rs a /\
  moderate Ls (lenN rs) (labelsNow rs) r /\ rq_add r <> [] /\
  Mutate (full f) hs c vrf sign (rq_opening r) (rq_order r) (rq_now r) t (rq_add r) (rq_remove r) = (Ok u, t') /\
  Process (full f) hs c a u = (Ok tt, a') /\
  a_state a' = Some s /\ logEntryMarshal e = Ok raw /\ mget (x_entries (durable (t_tx t'))) (lenN rs) = Some raw /\ as_prefix s <> le_root e /\
  moderate Ls (lenN rs + 1) (labelsNow (rs ++ [r])) r2 /\ rq_add r2 <> [] /\ rq_remove r2 = [] /\
  Mutate (full f) hs c vrf sign (rq_opening r2) (rq_order r2) (rq_now r2) t' (rq_add r2) (rq_remove r2) = (Ok u2, t2) /\
  Process (full f) hs c a' u2 = (Fail m, a').
Proof.
  exists toy32, 32, ac, xvrf, xsign, asgn, [x07], xLs, (snd m2r), [q1; q2], b2, q3, (upOf m3r), (snd m3r), b3. do 2 eexists. exists e3, q4, (upOf m4r), (snd m4r). eexists.
  split; [exact toyLen|]. split; [split; [reflexivity|discriminate]|]. split; [exact x_vrfGood|]. split; [exact b2_tracked|].
  split; [moderately|]. split; [discriminate|]. split; [vm_compute; reflexivity|]. split; [vm_compute; reflexivity|]. split; [reflexivity|].
  split; [reflexivity|]. split; [vm_compute; reflexivity|]. split; [vm_compute; discriminate|].
  split; [moderately|]. split; [discriminate|]. split; [reflexivity|]. split; [vm_compute; reflexivity|]. vm_compute. reflexivity.
Qed.
