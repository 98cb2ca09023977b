(** Commitments bind. *)
From Verif Require Import Base BaseProofs LogTreeSpec PrefixModel CodecModel CodecSpec CodecProofs CodecProofs2 CodecProofs3 CommitModel.
Open Scope N_scope.
Local Open Scope list_scope.

Lemma hash_restrict f T x h : hash (restrict f T) x = Ok h -> In x T /\ h = f x.
Proof.
  unfold hash, restrict. destruct (existsb (bytes_eqb x) T) eqn:E; cbn [of_opt]; [|discriminate]. intros [= <-].
  apply existsb_exists in E. destruct E as (y & I & E). apply bytes_eqb_eq in E. subst. auto.
Qed.

Lemma pad_inj T f o b o' b' c : Commit (restrict f T) o b = Ok c -> Commit (restrict f T) o' b' = Ok c ->
  o ++ b = o' ++ b' \/ collisionIn f T.
Proof.
  unfold Commit, hmac. set (ip := map (xorByte 54) _). set (op := map (xorByte 92) _). intros E E'.
  apply bind_ok in E. destruct E as (i & I & O). apply bind_ok in E'. destruct E' as (i' & I' & O').
  apply hash_restrict in I, O, I', O'. destruct I as [I1 ->], O as [O1 ->], I' as [I1' ->], O' as [O1' O2'].
  destruct (bytes_eq_dec (f (ip ++ o ++ b)) (f (ip ++ o' ++ b'))) as [E|E].
  - destruct (bytes_eq_dec (o ++ b) (o' ++ b')) as [D|D]; [now left|right].
    exists (ip ++ o ++ b), (ip ++ o' ++ b'). split; [exact I1|]. split; [exact I1'|]. split; [|exact E].
    intros X. apply app_inv_head in X. contradiction.
  - right. exists (op ++ f (ip ++ o ++ b)), (op ++ f (ip ++ o' ++ b')). split; [exact O1|]. split; [exact O1'|]. split; [|exact O2'].
    intros X. apply app_inv_head in X. contradiction.
Qed.

Theorem commit_binds f T o o' l l' v v' u u' c : List.length o = List.length o' -> u32ok v -> u32ok v' ->
  labelCommitment (restrict f T) o l v u = Ok c -> labelCommitment (restrict f T) o' l' v' u' = Ok c ->
  (o = o' /\ l = l' /\ v = v' /\ u = u') \/ collisionIn f T.
Proof.
  intros L V V' E E'. unfold labelCommitment in *. apply bind_ok in E. destruct E as (b & B & E). apply bind_ok in E'. destruct E' as (b' & B' & E').
  destruct (pad_inj _ _ _ _ _ _ _ E E') as [X|X]; [left|now right].
  apply app_eq_length_inv in X; [|exact L]. destruct X as [-> <-]. split; [reflexivity|]. exact (commitmentValue_inj _ _ _ _ _ _ _ V V' B B').
Qed.

Theorem commit_verifies f o b : exists c, Commit (full f) o b = Ok c /\ VerifyCommitment (full f) o b c = Ok true.
Proof.
  unfold VerifyCommitment. assert (E : exists c, Commit (full f) o b = Ok c) by (eexists; reflexivity). destruct E as [c E].
  exists c. split; [exact E|]. rewrite E. cbn [bind]. now rewrite bytes_eqb_refl.
Qed.

Theorem verify_only H o b c : VerifyCommitment H o b c = Ok true -> Commit H o b = Ok c.
Proof.
  unfold VerifyCommitment. intros E. apply bind_ok in E. destruct E as (d & D & E). injection E as E. apply bytes_eqb_eq in E. congruence.
Qed.
