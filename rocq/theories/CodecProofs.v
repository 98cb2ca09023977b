(** Lemmas: encodings round-trip, are canonical and never crash. *)
From Verif Require Import Base BaseProofs PrefixModel PrefixCodecProofs CodecModel CodecSpec.

Lemma safe_bind {A B} (x : res A) (f : A -> res B) : safe x -> (forall a, x = Ok a -> safe (f a)) -> safe (bind x f).
Proof. intros [[a E]|[m E]] F; rewrite E; cbn; [apply F; exact E|right; eauto]. Qed.
Lemma safe_ok {A} (a : A) : safe (Ok a). Proof. left; eauto. Qed.
Lemma safe_fail {A} m : safe (@Fail A m). Proof. right; eauto. Qed.
#[export] Hint Resolve safe_ok safe_fail : codec.

Lemma readFull_ok k raw x rest : readFull k raw = Ok (x, rest) -> List.length x = k /\ raw = x ++ rest.
Proof.
  unfold readFull. destruct (Nat.leb_spec k (List.length raw)) as [L|L]; [|discriminate].
  intro E. injection E as <- <-. split; [apply firstn_length_le; exact L|symmetry; apply firstn_skipn].
Qed.
Lemma readFull_safe k raw : safe (readFull k raw).
Proof. unfold readFull. destruct (Nat.leb _ _); auto with codec. Qed.
Lemma readByte_safe raw : safe (readByte raw).
Proof. destruct raw; cbn; auto with codec. Qed.

Lemma codec_full k : codec (size k) (fun e => Ok e) (readFull k).
Proof.
  split; [|split].
  - intros x raw rest L E. injection E as <-. apply readFull_hs. exact L.
  - intros raw x rest E. apply readFull_ok in E. destruct E as [L ->]. split; [exact L|eauto].
  - apply readFull_safe.
Qed.

Lemma codec_num k : codec (fun v => v < 256 ^ N.of_nat k) (fun v => Ok (writeNum k v)) (readNum k).
Proof.
  split; [|split].
  - intros x raw rest L E. injection E as <-. unfold readNum, writeNum. rewrite readFull_hs by apply be_length. cbn.
    rewrite unbe_be by exact L. reflexivity.
  - intros raw x rest E. unfold readNum in E. destruct (readFull k raw) as [[b r]| | |] eqn:F; try discriminate. cbn in E.
    injection E as <- <-. apply readFull_ok in F. destruct F as [L ->]. split.
    + rewrite <- L. change (N.of_nat (List.length b)) with (lenN b). apply unbe_lt.
    + eexists. split; [reflexivity|]. unfold writeNum. rewrite <- L, be_unbe. reflexivity.
  - intro raw. unfold readNum. apply safe_bind; [apply readFull_safe|]. intros [b r] _. apply safe_ok.
Qed.
Lemma codec_ext {A} (P Q : A -> Prop) w g : (forall x, P x <-> Q x) -> codec P w g -> codec Q w g.
Proof.
  intros E [A1 [A2 A3]]. split; [|split]; [| |exact A3].
  - intros x raw rest O. apply A1. apply E. exact O.
  - intros raw x rest G. destruct (A2 raw x rest G) as [O W]. split; [apply E; exact O|exact W].
Qed.
Lemma codec_u64 : codec u64ok (fun v => Ok (writeNum 8 v)) (readNum 8).
Proof. apply (codec_ext (fun v => v < 256 ^ N.of_nat 8)); [|apply codec_num]. intro x. reflexivity. Qed.
Lemma codec_u32 : codec u32ok (fun v => Ok (writeNum 4 v)) (readNum 4).
Proof. apply (codec_ext (fun v => v < 256 ^ N.of_nat 4)); [|apply codec_num]. intro x. reflexivity. Qed.

(** Using a codec inside a larger decoder. *)
Lemma codec_rt {A} {ok : A -> Prop} {w g} : codec ok w g -> forall x raw rest, ok x -> w x = Ok raw -> g (raw ++ rest) = Ok (x, rest).
Proof. intros [E _]. exact E. Qed.
Lemma codec_inv {A} {ok : A -> Prop} {w g} : codec ok w g -> forall raw x rest, g raw = Ok (x, rest) ->
  ok x /\ exists pre, w x = Ok pre /\ raw = pre ++ rest.
Proof. intros [_ [E _]]. exact E. Qed.
Lemma codec_safe {A} {ok : A -> Prop} {w g} : codec ok w g -> forall raw, safe (g raw).
Proof. intros [_ [_ E]]. exact E. Qed.

Lemma codec_optional : codec (fun _ => True) (fun b => Ok (writeOptional b)) readOptional.
Proof.
  split; [|split].
  - intros [|] raw rest _ E; injection E as <-; reflexivity.
  - intros [|b raw] x rest E; [discriminate|]. unfold readOptional in E. cbn in E.
    destruct (N.eqb_spec (b2n b) 0) as [E0|E0]; [|destruct (N.eqb_spec (b2n b) 1) as [E1|E1]; [|discriminate]].
    + injection E as <- <-. split; [exact I|]. eexists. split; [reflexivity|]. replace b with x00; [reflexivity|]. apply b2n_inj. rewrite E0. reflexivity.
    + injection E as <- <-. split; [exact I|]. eexists. split; [reflexivity|]. replace b with x01; [reflexivity|]. apply b2n_inj. rewrite E1. reflexivity.
  - intros [|b raw]; [apply safe_fail|]. unfold readOptional. cbn.
    destruct (_ =? 0); [apply safe_ok|]. destruct (_ =? 1); auto with codec.
Qed.

Lemma codec_bytes k : (0 < k)%nat -> codec (fun _ => True) (writeBytes k) (readBytes k).
Proof.
  intro K. assert (P : 0 < 256 ^ N.of_nat k) by (apply N.neq_0_lt_0, N.pow_nonzero; discriminate).
  split; [|split].
  - intros x raw rest _ E. unfold writeBytes in E. destruct (N.ltb_spec (maxS k) (lenN x)) as [L|L]; [discriminate|].
    injection E as <-. unfold readBytes. rewrite <- app_assoc.
    rewrite (codec_rt (codec_num k) (lenN x) _ _ ltac:(cbv beta; unfold maxS in L; lia) eq_refl). cbn. apply readFull_hs. unfold lenN. lia.
  - intros raw x rest E. split; [exact I|]. unfold readBytes in E. destruct (readNum k raw) as [[v r]| | |] eqn:F; try discriminate. cbn in E.
    destruct (codec_inv (codec_num k) _ _ _ F) as [V [pre [W ->]]]. apply readFull_ok in E. destruct E as [L ->].
    unfold writeBytes. replace (lenN x) with v by (unfold lenN; lia).
    destruct (N.ltb_spec (maxS k) v) as [Q|_]; [unfold maxS in Q; lia|]. eexists. split; [reflexivity|].
    injection W as <-. rewrite app_assoc. reflexivity.
  - intro raw. unfold readBytes. apply safe_bind; [apply (codec_safe (codec_num k))|]. intros [v r] _. apply readFull_safe.
Qed.

Lemma codec_many {A} (ok : A -> Prop) w g : codec ok w g -> forall n,
  codec (fun l => Forall ok l /\ List.length l = n) (fun l => let* bs := mapM w l in Ok (List.concat bs)) (getMany g n).
Proof.
  intros C. induction n as [|n [IH1 [IH2 IH3]]].
  - split; [|split].
    + intros [|a l] raw rest [_ L] E; [|discriminate L]. injection E as <-. reflexivity.
    + intros raw x rest E. injection E as <- <-. split; [split; [constructor|reflexivity]|]. exists []. split; reflexivity.
    + intro raw. apply safe_ok.
  - split; [|split].
    + intros [|a l] raw rest [F L] E; [discriminate L|]. injection L as L. inversion F; subst.
      cbn in E. destruct (w a) as [b| | |] eqn:W; try discriminate. cbn in E. destruct (mapM w l) as [bs| | |] eqn:M; try discriminate.
      cbn in E. injection E as <-. cbn. rewrite <- app_assoc, (codec_rt C _ _ _ H1 W). cbn.
      rewrite (IH1 l (List.concat bs) rest); [reflexivity|auto|]. rewrite M. reflexivity.
    + intros raw x rest E. cbn in E. destruct (g raw) as [[a r]| | |] eqn:G; try discriminate. cbn in E.
      destruct (getMany g n r) as [[l r']| | |] eqn:M; try discriminate. cbn in E. injection E as <- <-.
      destruct (codec_inv C _ _ _ G) as [Oa [pre [W ->]]]. destruct (IH2 _ _ _ M) as [[F L] [pre' [W' ->]]].
      split; [split; [constructor; assumption|cbn; f_equal; exact L]|]. cbn [mapM]. rewrite W. cbn.
      destruct (mapM w l) as [bs| | |]; try discriminate. cbn in *. injection W' as <-. eexists. split; [reflexivity|]. rewrite app_assoc. reflexivity.
    + intro raw. cbn. apply safe_bind; [apply (codec_safe C)|]. intros [a r] _. apply safe_bind; [apply IH3|]. intros [l r'] _. apply safe_ok.
Qed.

Lemma codec_slice {A} k (ok : A -> Prop) w g : codec ok w g -> codec (Forall ok) (writeSlice k w) (readSlice k g).
Proof.
  intro C. split; [|split].
  - intros x raw rest F E. unfold writeSlice in E. destruct (N.ltb_spec (maxS k) (lenN x)) as [L|L]; [discriminate|].
    destruct (mapM w x) as [bs| | |] eqn:M; try discriminate. injection E as <-. unfold readSlice. rewrite <- app_assoc.
    assert (P : 0 < 256 ^ N.of_nat k) by (apply N.neq_0_lt_0, N.pow_nonzero; discriminate).
    rewrite (codec_rt (codec_num k) (lenN x) _ _ ltac:(cbv beta; unfold maxS in L; lia) eq_refl). cbn.
    apply (codec_rt (codec_many ok w g C (N.to_nat (lenN x)))); [split; [exact F|unfold lenN; lia]|]. rewrite M. reflexivity.
  - intros raw x rest E. unfold readSlice in E. destruct (readNum k raw) as [[v r]| | |] eqn:F; try discriminate. cbn in E.
    destruct (codec_inv (codec_num k) _ _ _ F) as [V [pre [W ->]]].
    destruct (codec_inv (codec_many ok w g C (N.to_nat v)) _ _ _ E) as [[Fa L] [pre' [W' ->]]]. split; [exact Fa|].
    unfold writeSlice. replace (lenN x) with v by (unfold lenN; lia).
    destruct (N.ltb_spec (maxS k) v) as [Q|_]; [unfold maxS in Q; lia|].
    destruct (mapM w x) as [bs| | |]; try discriminate. cbn in *. injection W' as <-. injection W as <-. eexists. split; [reflexivity|]. rewrite app_assoc. reflexivity.
  - intro raw. unfold readSlice. apply safe_bind; [apply (codec_safe (codec_num k))|]. intros [v r] _. apply (codec_safe (codec_many ok w g C _)).
Qed.

(** ** Automation for structures *)
Create HintDb codecs.
Opaque writeNum be writeOptional two64 two32.
#[export] Hint Extern 0 (codec _ _ (readNum 8)) => exact codec_u64 : codecs.
#[export] Hint Extern 0 (codec _ _ (readNum 4)) => exact codec_u32 : codecs.
#[export] Hint Extern 0 (codec _ _ (readFull _)) => apply codec_full : codecs.
#[export] Hint Extern 0 (codec _ _ readOptional) => exact codec_optional : codecs.
#[export] Hint Extern 0 (codec _ _ (readSlice _ _)) => apply codec_slice : codecs.
#[export] Hint Extern 0 (codec _ _ (readBytes _)) => (apply codec_bytes; lia) : codecs.
Ltac fc := solve [eauto 10 with codecs nocore].

(** Invert [bind x f = Ok y] hypotheses. *)
Ltac ib := repeat match goal with
  | H : bind ?x _ = Ok _ |- _ => let E := fresh "E" in destruct x eqn:E; try discriminate H; cbn [bind] in H
  | H : Ok _ = Ok _ |- _ => injection H as H; subst
  | H : (let '(a, b) := ?p in _) = Ok _ |- _ => destruct p
  | p : (_ * bytes)%type |- _ => destruct p
  end.
(** Decode what was encoded. *)
Ltac fwd1 := match goal with
  | |- context [bind (?g (?raw ++ ?rest)) _] =>
      let C := fresh "C" in eassert (C : codec _ _ g) by (fc);
      erewrite (codec_rt C _ raw rest); [ | | solve [first [eassumption | reflexivity]] ];
      [ | solve [first [eassumption | exact I | cbn; assumption | auto]] ]; clear C; cbn [bind]
  end.
Ltac fwd := rewrite ?app_nil_r, <- ?app_assoc; repeat fwd1; try reflexivity.
(** Invert a decoding. *)
Ltac bwd := repeat match goal with
  | H : ?g ?raw = Ok (?x, ?rest) |- _ =>
      let O := fresh "O" in let W := fresh "W" in let p := fresh "pre" in let Q := fresh "Q" in
      let C := fresh "C" in eassert (C : codec _ _ g) by (fc);
      destruct (codec_inv C _ _ _ H) as [O [p [W Q]]]; clear H C; subst
  end.
Ltac sb := repeat match goal with
  | |- safe (Ok _) => apply safe_ok
  | |- safe (Fail _) => apply safe_fail
  | |- safe (bind _ _) => apply safe_bind; [ | intros [? ?] _ ]
  | |- safe (readByte _) => apply readByte_safe
  | |- safe (if ?b then _ else _) => destruct b
  | |- safe (match ?b with _ => _ end) => destruct b
  | |- safe (?g ?raw) => let C := fresh "C" in eassert (C : codec _ _ g) by fc; apply (codec_safe C)
  end.

Lemma codec_optnum8 : codec (optok u64ok) (fun v => Ok (writeOptionalNum 8 v)) (readOptionalNum 8).
Proof.
  split; [|split].
  - intros [v|] raw rest O E; injection E as <-; unfold readOptionalNum, writeOptionalNum; cbn in O; fwd; reflexivity.
  - intros raw x rest E. unfold readOptionalNum in E. ib. destruct b; ib; bwd; ib; split; cbn; auto; eexists; (split; [reflexivity|]); cbn; rewrite ?app_assoc; auto.
  - intro raw. unfold readOptionalNum. sb.
Qed.
Lemma codec_optnum4 : codec (optok u32ok) (fun v => Ok (writeOptionalNum 4 v)) (readOptionalNum 4).
Proof.
  split; [|split].
  - intros [v|] raw rest O E; injection E as <-; unfold readOptionalNum, writeOptionalNum; cbn in O; fwd; reflexivity.
  - intros raw x rest E. unfold readOptionalNum in E. ib. destruct b; ib; bwd; ib; split; cbn; auto; eexists; (split; [reflexivity|]); cbn; rewrite ?app_assoc; auto.
  - intro raw. unfold readOptionalNum. sb.
Qed.
#[export] Hint Extern 0 (codec _ _ (readOptionalNum 8)) => exact codec_optnum8 : codecs.
#[export] Hint Extern 0 (codec _ _ (readOptionalNum 4)) => exact codec_optnum4 : codecs.

(** Goals after inverting a decoding *)
Ltac fin := cbv beta in *; ib; repeat match goal with H : _ = Ok _ |- _ => rewrite H; clear H end; cbn [bind]; eexists; (split; [reflexivity|]);
  rewrite <- ?app_assoc, ?app_nil_r; try reflexivity.
Ltac struct f := split; [|split];
  [ intros x raw rest O E | intros raw x rest E | intro raw; f; sb ].

Lemma codec_result hs : codec (okResult hs) resultMarshal (newResult hs).
Proof.
  split; [|split].
  - intros [d|v c d|d] raw rest [D O] E; cbn in E, D; injection E as <-; unfold newResult; cbn.
    + rewrite b2n_n2b, N.mod_small by lia. rewrite Nat2N.id. reflexivity.
    + destruct O as [L1 L2]. rewrite <- !app_assoc. rewrite readFull_hs by exact L1. cbn. rewrite readFull_hs by exact L2. cbn.
      rewrite b2n_n2b, N.mod_small by lia. rewrite Nat2N.id. reflexivity.
    + rewrite b2n_n2b, N.mod_small by lia. rewrite Nat2N.id. reflexivity.
  - intros raw x rest E. unfold newResult in E. destruct raw as [|t r]; [discriminate|]. cbn [readByte bind] in E.
    destruct (N.eqb_spec (b2n t) 1) as [E1|_]; [|destruct (N.eqb_spec (b2n t) 2) as [E1|_]; [|destruct (N.eqb_spec (b2n t) 3) as [E1|_]; [|discriminate]]].
    + destruct r as [|d r]; [discriminate|]. injection E as <- <-. pose proof (b2n_lt d). split; [split; [cbn; lia|exact I]|].
      eexists. split; [reflexivity|]. cbn. rewrite N2Nat.id, n2b_b2n. f_equal. apply b2n_inj. rewrite E1. reflexivity.
    + destruct (readFull hs r) as [[v r1]| | |] eqn:F1; try discriminate. cbn [bind] in E.
      destruct (readFull hs r1) as [[c r2]| | |] eqn:F2; try discriminate. cbn [bind] in E.
      destruct r2 as [|d r2]; [discriminate|]. injection E as <- <-. pose proof (b2n_lt d).
      apply readFull_ok in F1, F2. destruct F1 as [L1 ->], F2 as [L2 ->]. split; [split; [cbn; lia|split; assumption]|].
      eexists. split; [reflexivity|]. cbn. rewrite N2Nat.id, n2b_b2n, <- !app_assoc. f_equal. apply b2n_inj. rewrite E1. reflexivity.
    + destruct r as [|d r]; [discriminate|]. injection E as <- <-. pose proof (b2n_lt d). split; [split; [cbn; lia|exact I]|].
      eexists. split; [reflexivity|]. cbn. rewrite N2Nat.id, n2b_b2n. f_equal. apply b2n_inj. rewrite E1. reflexivity.
  - intro raw. unfold newResult. sb.
Qed.
#[export] Hint Extern 0 (codec _ _ (newResult _)) => apply codec_result : codecs.

Lemma codec_prefixProof hs : codec (okPrefixProof hs) prefixProofMarshal (newPrefixProof hs).
Proof.
  struct ltac:(unfold newPrefixProof).
  - destruct x, O as [O1 O2]. unfold prefixProofMarshal in E. ib. unfold newPrefixProof. fwd.
  - unfold newPrefixProof in E. ib. bwd. split; [split; assumption|]. unfold prefixProofMarshal. cbn. fin.
Qed.
#[export] Hint Extern 0 (codec _ _ (newPrefixProof _)) => apply codec_prefixProof : codecs.
