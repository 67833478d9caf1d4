(** * Specification: a column of a zkLedger-style ledger, in terms of the API

    The README names zkLedger as the purpose of the package: for every transaction a
    participant's column holds a commitment to an amount and a token for the blinding
    factor; an auditor sums both columns and is given a proof for the total. *)
From Coq Require Import ZArith List Bool.
From Verif Require Import Go Wire Big Crypto Spec SpecZk.
Import ListNotations.
Open Scope Z_scope.

(** a history of transactions: amounts and blinding factors *)
Definition history : Type := list (Z * Z).
Definition total (txs : history) : Z := fold_right Z.add 0 (map fst txs).
Definition blinding (txs : history) : Z := fold_right Z.add 0 (map snd txs).

(** the sum of the commitments, and of the tokens, of all transactions *)
Fixpoint sumCommitments (zk : zkparams) (txs : history) : R ECPoint :=
  match txs with
  | [] => Ok ZeroPoint
  | (v, r) :: t => s <- sumCommitments zk t; c <- PedCommitR zk (Some v) (Some r); Add zk s c
  end.
Fixpoint sumTokens (zk : zkparams) (pk : ECPoint) (txs : history) : R ECPoint :=
  match txs with
  | [] => Ok ZeroPoint
  | (_, r) :: t => s <- sumTokens zk pk t; c <- CommitR zk pk (Some r); Add zk s c
  end.

(** what is left of the sum of commitments when the claimed total is taken off: the
    second base of the equivalence proof "pk = sk*H and tokens = sk*(sum - claim*G)" *)
Definition auditBase (zk : zkparams) (sum : ECPoint) (claim : Z) : R ECPoint :=
  g <- Mult zk (zG zk) (Some claim); Sub zk sum g.
