(** The server of HandleExamples.v is what the model calls a faithful one. *)
From Coq Require Import Sorted.
From Verif Require Import Base BaseProofs LogMathModel TransMathModel TransMathSpec LogTreeModel LogTreeSpec LogTreeProofs3 LogChunkModel LogChunkSpec LogChunkProofs6 LogChunkProofs7 PrefixModel PrefixSpec PrefixProofs PrefixExamples LaddersModel CodecModel AlgModel AlgSpec AlgProofs AlgProofs4 AlgExamples HandleModel HandleSpec HandleProofs4 HandleExamples.
Open Scope N_scope.

Lemma exWorld_ok : faithful toy32 32 exWorld.
Proof.
  unfold faithful. repeat match goal with |- _ /\ _ => split end.
  - change (lenN (w_entries exWorld)) with 7. unfold okLog. cbn [h_n h_ts h_g observed]. change (lenN (w_entries exWorld)) with 7. split; [lia|].
    assert (T : forall x, x < 7 -> le_ts (entryAt exWorld x) = 10 * (x + 1)).
    { intros x H. apply below7 in H. cbn in H. repeat (destruct H as [<-|H]; [reflexivity|]). destruct H. }
    assert (G : forall x, x < 7 -> Z.of_nat (countLe x (w_index exWorld)) = if x <? 1 then 0%Z else if x <? 4 then 2%Z else if x <? 5 then 3%Z else 8%Z).
    { intros x H. apply below7 in H. cbn in H. repeat (destruct H as [<-|H]; [reflexivity|]). destruct H. }
    split; [intros x y H; rewrite !T by lia; lia|]. split; [intros x H; rewrite T by lia; unfold two64; lia|].
    split; [intros x y H; rewrite !G by lia|intros x H; rewrite G by lia];
      repeat match goal with |- context[?a <? ?b] => destruct (N.ltb_spec a b) end; lia.
  - discriminate.
  - repeat constructor; cbn; discriminate.
  - intros e H. cbn in H. repeat (destruct H as [<-|H]; [reflexivity|]). destruct H.
  - intros x H. apply below7 in H. cbn in H. repeat (destruct H as [<-|H]; [eexists; split; reflexivity|]). destruct H.
  - exists exLeaves, (snd (fst exLog)). split; [repeat constructor|]. vm_compute. reflexivity.
  - destruct (build_hist exAdds [] [] emptyMap (repeat x00 32) exRoots exPrefixDb) as [HI _].
    { repeat constructor; try discriminate. }
    { reflexivity. }
    { constructor. }
    { exact exBuilt_ok. }
    eexists. split; [exact HI|]. intros x H. change (lenN (w_entries exWorld)) with 7 in H. cbn [h_g observed].
    assert (LK : forall v m y ws, v < 2 ^ 32 -> Forall (fun w => w < 2 ^ 32) ws -> PrefixSpec.update m (exAdd y ws) [] (exKey v) = if existsb (N.eqb v) ws then Some (exCom v) else m (exKey v)).
    { intros v m y ws Hv F. unfold PrefixSpec.update. rewrite exAdd_look by auto. destruct (existsb _ _); reflexivity. }
    assert (NC : forall i m r, nth_error (maps emptyMap exAdds) i = Some m -> nth_error exRoots i = Some r ->
      nth_error (([] ++ [(emptyMap, repeat x00 32)]) ++ combine (maps emptyMap exAdds) exRoots) (S i) = Some (m, r)).
    { intros i m r A B. apply (nth_combine _ _ _ _ _ A B). }
    apply below7 in H. cbn in H.
    repeat (destruct H as [<-|H]; [eexists; split; [apply NC; [reflexivity|vm_compute; reflexivity]|]; intros v Hv; cbn [w_key exWorld w_com w_index];
      match goal with |- context[countLe ?a ?b] => let k := eval vm_compute in (Z.of_nat (countLe a b) - 1)%Z in change (Z.of_nat (countLe a b) - 1)%Z with k end;
      rewrite !LK by (auto; repeat constructor); cbn [existsb]; change (emptyMap (exKey v)) with (@None bytes);
      match goal with |- context[(Z.of_N v <=? ?k)%Z] => destruct (Z.leb_spec (Z.of_N v) k) end;
      repeat match goal with |- context[v =? ?b] => destruct (N.eqb_spec v b) end; try reflexivity; exfalso; lia|]). destruct H.
  - intros v. unfold w_key, w_com, exWorld, exKey, exCom. cbn [List.length]. rewrite rev_length, !be_length. split; reflexivity.
  - intros v v'. apply exKey_inj.
Qed.
