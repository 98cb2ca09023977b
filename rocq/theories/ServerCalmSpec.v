(** Specification for C50: the requests that a server answers with a response or an error. *)
From Verif Require Import Base CodecModel CodecSpec MutateModel MutateSpec ServerModel CalmSpec.
Open Scope N_scope.

(** The request is about a label under consideration which has fewer than 2^31 versions, and does not advertise a tree without entries. *)
Definition ordinary (Ls : list bytes) (rs : list request) (label : bytes) (last : option N) : Prop :=
  In label Ls /\ lenN (labelsNow rs label) < 2 ^ 31 /\ last <> Some 0.

(** What the process behind the tree does with a request to update [label]: there is none, or it leaves the database as some successful
    mutations would, and no fewer than one of them. *)
Definition sequenced (H : bytes -> option bytes) (hs : N) (c : pubConfig) (vrf : bytes -> bytes * bytes) (sign : bytes -> res bytes) (Ls : list bytes) (label : bytes)
  (sequencer : option (contents * option N)) : Prop :=
  match sequencer with
  | None => True
  | Some (s, _) => exists t rs, runs H hs c vrf sign Ls t rs /\ rs <> [] /\ s = durable (t_tx t) /\ lenN (labelsNow rs label) < 2 ^ 31
  end.

(** The server that has opened the tree [t], with any tree head of an auditor. *)
Definition serverWith (t : tree) (a : option auditorTreeHead) : server := {| sv_db := durable (t_tx t); sv_head := t_head t; sv_auditor := a |}.
