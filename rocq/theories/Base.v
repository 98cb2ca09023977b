(** Common vocabulary of the model: bytes, Go results, fixed-width integers.
    Nothing in this file models a particular function of /repo. *)
From Coq Require Export List NArith ZArith Lia Bool Ascii String.
From Coq.Strings Require Export Byte.
From Coq Require Export ZifyBool ZifyNat ZifyN.
Export ListNotations.
Open Scope N_scope.
Ltac Zify.zify_post_hook ::= Z.div_mod_to_equations.

(** ** Results of Go functions *)

(** [Ok a]: normal return; [Fail msg]: a non-nil [error] is returned;
    [Panic msg]: run-time panic; [Fuel]: the loop did not finish within the
    given number of iterations. *)
Inductive res (A : Type) : Type :=
| Ok (a : A)
| Fail (msg : string)
| Panic (msg : string)
| Fuel.
Arguments Ok {A} a.
Arguments Fail {A} msg.
Arguments Panic {A} msg.
Arguments Fuel {A}.

Definition bind {A B} (x : res A) (f : A -> res B) : res B :=
  match x with
  | Ok a => f a
  | Fail m => Fail m
  | Panic m => Panic m
  | Fuel => Fuel
  end.

Declare Scope res_scope.
Delimit Scope res_scope with res.
Notation "'let*' x := e 'in' k" := (bind e (fun x => k))
  (at level 200, x pattern, e at level 100, k at level 200, right associativity) : res_scope.
Open Scope res_scope.

Definition of_opt {A} (msg : string) (o : option A) : res A :=
  match o with Some a => Ok a | None => Fail msg end.

Definition is_ok {A} (r : res A) : bool := match r with Ok _ => true | _ => false end.
Definition is_panic {A} (r : res A) : bool := match r with Panic _ => true | _ => false end.

(** Sequencing a fallible function over a list. *)
Fixpoint mapM {A B} (f : A -> res B) (l : list A) : res (list B) :=
  match l with
  | [] => Ok []
  | a :: t => let* b := f a in let* bs := mapM f t in Ok (b :: bs)
  end.

Fixpoint foldM {A B} (f : B -> A -> res B) (l : list A) (b : B) : res B :=
  match l with
  | [] => Ok b
  | a :: t => let* b' := f b a in foldM f t b'
  end.

(** ** Fixed-width unsigned arithmetic *)

Definition two64 : N := 18446744073709551616.
Definition two32 : N := 4294967296.
Definition w64 (x : N) : N := x mod two64.
Definition w32 (x : N) : N := x mod two32.

(** Go's [a - b] on uint64 (operands below 2^64). *)
Definition sub64 (a b : N) : N := (a + two64 - b) mod two64.
Definition add64 (a b : N) : N := (a + b) mod two64.
Definition mul64 (a b : N) : N := (a * b) mod two64.
(** Go's [a << k] on uint64. *)
Definition shl64 (a k : N) : N := (N.shiftl a k) mod two64.

Definition sub32 (a b : N) : N := (a + two32 - b) mod two32.
Definition add32 (a b : N) : N := (a + b) mod two32.
Definition shl32 (a k : N) : N := (N.shiftl a k) mod two32.

(** ** Bytes *)

Definition bytes := list byte.

Definition b2n (b : byte) : N := Byte.to_N b.
(** Truncating conversion to a byte ([byte(x)] in Go). *)
Definition n2b (n : N) : byte :=
  match Byte.of_N (n mod 256) with Some b => b | None => x00 end.

Fixpoint bytes_eqb (a b : bytes) : bool :=
  match a, b with
  | [], [] => true
  | x :: a', y :: b' => Byte.eqb x y && bytes_eqb a' b'
  | _, _ => false
  end.

(** [bytes.Compare]: lexicographic order. *)
Fixpoint bytes_cmp (a b : bytes) : comparison :=
  match a, b with
  | [], [] => Eq
  | [], _ :: _ => Lt
  | _ :: _, [] => Gt
  | x :: a', y :: b' =>
      match N.compare (b2n x) (b2n y) with
      | Eq => bytes_cmp a' b'
      | c => c
      end
  end.

Definition lenN {A} (l : list A) : N := N.of_nat (List.length l).

(** Big-endian encoding of [x] into [k] bytes (truncating). *)
Fixpoint be (k : nat) (x : N) : bytes :=
  match k with
  | O => []
  | S k' => n2b (N.shiftr x (8 * N.of_nat k')) :: be k' x
  end.

(** Value of a big-endian byte string. *)
Definition unbe (l : bytes) : N := fold_left (fun acc b => acc * 256 + b2n b) l 0.

(** ** Association lists keyed by N (Go's map[uint64]T) *)

Fixpoint mget {A} (m : list (N * A)) (k : N) : option A :=
  match m with
  | [] => None
  | (k', v) :: t => if k =? k' then Some v else mget t k
  end.

(** Insert at the front; [mget] sees the newest binding. *)
Definition mput {A} (m : list (N * A)) (k : N) (v : A) : list (N * A) := (k, v) :: m.

Definition mhas {A} (m : list (N * A)) (k : N) : bool :=
  match mget m k with Some _ => true | None => false end.

(** Sorted insertion and sorting of [N] lists ([slices.Sort]). *)
Fixpoint ninsert (x : N) (l : list N) : list N :=
  match l with
  | [] => [x]
  | y :: t => if x <=? y then x :: l else y :: ninsert x t
  end.
Definition nsort (l : list N) : list N := fold_right ninsert [] l.
