(** Properties of binary ladders: C12, C13, C15. *)
From Verif Require Import Base BaseProofs LaddersModel LaddersProofs.

(** C12 (refuted): for every version at or above 2^31-1 the computation never
    terminates, no matter how many iterations are allowed. *)
Theorem C12_ladder_terminates_refuted :
  exists n, n < 2 ^ 32 /\ forall fuel, baseBinaryLadder_fuel fuel n = Fuel.
Proof. exists (2 ^ 31 - 1). split; [reflexivity|]. intro fuel. apply base_diverges. split; [|reflexivity]. discriminate. Qed.
Print Assumptions C12_ladder_terminates_refuted.

Theorem C12_ladder_diverges_at_top : forall n fuel,
  2 ^ 31 - 1 <= n < 2 ^ 32 -> baseBinaryLadder_fuel fuel n = Fuel.
Proof. exact (fun n fuel => base_diverges fuel n). Qed.
Print Assumptions C12_ladder_diverges_at_top.

(** The part that holds: below 2^31-1 the computation terminates normally (it
    neither panics nor runs forever), visits 0 first, and the ladder holds the
    version and its successor, without repetition. *)
Theorem C12_ladder_terminates_partial : forall n, n < 2 ^ 31 - 1 ->
  exists l, baseBinaryLadder n = Ok l /\ hd_error l = Some 0 /\ In n l /\ In (n + 1) l /\ NoDup l.
Proof.
  exact (fun n Hn => match base_spec n Hn with
    | ex_intro _ l (conj E (conj A (conj B (conj ND (conj _ (ex_intro _ l' Hl)))))) =>
        ex_intro _ l (conj E (conj (eq_trans (f_equal (@hd_error N) Hl) eq_refl) (conj A (conj B ND))))
    end).
Qed.
Print Assumptions C12_ladder_terminates_partial.

Example C12_nonvacuous :
  baseBinaryLadder 6 = Ok [0; 1; 3; 7; 5; 6] /\
  baseBinaryLadder_fuel 1000 (2 ^ 31 - 1) = Fuel.
Proof. vm_compute. split; reflexivity. Qed.

(** C13: a truthfully answered ladder decides the comparison.  [g] is the greatest
    version that exists ([None]: the label has none).  The server looks up the
    versions of [asked] — the ladder for [t], cut where [g] decides it — and the
    verifier expects (at most) the ladder [full]. *)
Theorem C13_search_ladder_decides : forall t g, t < 2 ^ 31 - 1 ->
  exists full asked,
    searchBinaryLadder t t [] [] = Ok full /\
    searchBinaryLadder t g [] [] = Ok asked /\
    (exists rest, full = asked ++ rest) /\
    interpretSearchLadder full t (map (fun v => v <=? g) asked) =
      Ok (match g ?= t with Lt => (-1)%Z | Eq => 0%Z | Gt => 1%Z end).
Proof.
  intros t g Ht.
  destruct (search_ladder_agree t g [] [] Ht) as (full & asked & A & B & C & D);
    [intros ? []|intros ? []|].
  exists full, asked. split; [exact A|]. split; [exact B|]. split; [exact D|]. rewrite C. f_equal.
  unfold cmpZ. destruct (N.compare_spec g t), (Z.ltb_spec (Z.of_N g) (Z.of_N t)), (Z.ltb_spec (Z.of_N t) (Z.of_N g)); lia.
Qed.
Print Assumptions C13_search_ladder_decides.

Theorem C13_search_ladder_no_version : forall t full, t < 2 ^ 31 - 1 ->
  searchBinaryLadder t t [] [] = Ok full ->
  (exists rest, full = 0 :: rest) /\ interpretSearchLadder full t [false] = Ok (-1)%Z.
Proof.
  intros t full Ht E. destruct (interpret_none t [] [] full Ht) as [A B]; auto.
Qed.
Print Assumptions C13_search_ladder_no_version.

(** Soundness: whatever set of versions exists (not even assumed to be downward
    closed), if the lookups the verifier expects are answered truthfully and the
    ladder is accepted, then its verdict is backed by facts. *)
Theorem C13_search_ladder_sound : forall t (exists_ : N -> bool) full results r,
  t < 2 ^ 31 - 1 ->
  searchBinaryLadder t t [] [] = Ok full ->
  (forall i v b, nth_error full i = Some v -> nth_error results i = Some b -> b = exists_ v) ->
  interpretSearchLadder full t results = Ok r ->
  (r = 1%Z /\ exists v, t < v /\ exists_ v = true) \/
  (r = (-1)%Z /\ exists v, v <= t /\ exists_ v = false) \/
  (r = 0%Z /\ exists_ t = true /\ exists_ (t + 1) = false).
Proof.
  intros t truth full results r Ht E HT EI.
  apply (interpret_sound t truth [] [] results r full); auto; intros ? [].
Qed.
Print Assumptions C13_search_ladder_sound.

Example C13_nonvacuous :
  searchBinaryLadder 6 6 [] [] = Ok [0; 1; 3; 7; 5; 6] /\
  searchBinaryLadder 6 4 [] [] = Ok [0; 1; 3; 7; 5] /\
  interpretSearchLadder [0; 1; 3; 7; 5; 6] 6 [true; true; true; false; false] = Ok (-1)%Z /\
  interpretSearchLadder [0; 1; 3; 7; 5; 6] 6 [true; true; true; false; true; true] = Ok 0%Z.
Proof. vm_compute. repeat split; reflexivity. Qed.

(** C15: monitoring ladders. *)
Theorem C15_monitoring_ladder : forall t, t < 2 ^ 31 - 1 ->
  exists l, monitoringBinaryLadder t = Ok l /\ In t l /\ Forall (fun v => v <= t) l /\ NoDup l.
Proof. exact monitoring_spec. Qed.
Print Assumptions C15_monitoring_ladder.

Example C15_nonvacuous : monitoringBinaryLadder 12 = Ok [0; 1; 3; 7; 11; 12].
Proof. vm_compute. reflexivity. Qed.
