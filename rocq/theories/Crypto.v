(** * Model of /repo/crypto.go

    [sha] is crypto/sha256 (Sum256 / New, Write..., Sum) as a function from the
    hashed bytes to the digest; every theorem quantifies over it.  A draw
    rand.Int(rand.Reader, N) is an explicit argument: [None] is an error of the
    random source, [Some u] the number drawn, 0 <= u < N. *)
From Coq Require Import ZArith List Bool.
From Verif Require Import Go Wire Big.
Import ListNotations.
Open Scope Z_scope.

(** crypto.go l.71-73 *)
Record ECPoint := EP { pX : option Z; pY : option Z }.
(** crypto.go l.18-23 ZKPCurveParams *)
Record zkparams := ZK { zC : curve; zG : ECPoint; zH : ECPoint; zHPoints : list ECPoint }.
(** crypto.go l.28-35 errorProof, errors of crypto/rand, fmt.Errorf and of the
    decoders; the texts are in Errors.v *)
Inductive goerr := EProof | ERand | ERange | ERead (e : rerr).

(** ECPoint{X, Y} from a pair returned by the curve *)
Definition mkPoint (xy : Z * Z) : ECPoint := EP (Some (fst xy)) (Some (snd xy)).
(** crypto.go l.266-271 init: Zero *)
Definition ZeroPoint : ECPoint := EP (Some 0) (Some 0).

(** crypto.go l.54-63 KeyGen(curve, base) *)
Definition KeyGen (c : curve) (base : ECPoint) (rnd : option Z) : R (ECPoint * Z) :=
  sk <- need rnd;                                    (* l.56-59: panic(err) *)
  bx <- need (pX base); by_ <- need (pY base);
  pk <- cScalarMult c bx by_ (bigBytes sk);
  Ok (mkPoint pk, sk).

(** crypto.go l.78-83 Equal: the second conjunct compares p2.Y with itself *)
Definition Equal (p p2 : ECPoint) : R bool :=
  x1 <- need (pX p); x2 <- need (pX p2);
  if x1 =? x2 then
    (y2 <- need (pY p2); Ok (y2 =? y2))
  else Ok false.

(** crypto.go l.86-110 Mult *)
Definition Mult (zk : zkparams) (p : ECPoint) (s : option Z) : R ECPoint :=
  match pX p, pY p with
  | None, None => Ok (EP None None)
  | _, _ =>
      s' <- need s;
      let modS := s' mod cN (zC zk) in
      e1 <- Equal p (zG zk);
      if (e1 : bool) then (xy <- cScalarBaseMult (zC zk) (bigBytes modS); Ok (mkPoint xy))
      else
        e2 <- Equal p (zH zk);
        if (e2 : bool) then (xy <- cScalarBaseMultH (zC zk) (bigBytes modS); Ok (mkPoint xy))
        else
          x <- need (pX p); y <- need (pY p);
          xy <- cScalarMult (zC zk) x y (bigBytes modS); Ok (mkPoint xy)
  end.

(** zkpcp.C.IsOnCurve(p.X, p.Y) *)
Definition isOnCurve (zk : zkparams) (p : ECPoint) : R bool :=
  x <- need (pX p); y <- need (pY p); cIsOnCurve (zC zk) x y.
(** zkpcp.C.Add(p.X, p.Y, p2.X, p2.Y) *)
Definition curveAdd (zk : zkparams) (p p2 : ECPoint) : R ECPoint :=
  x1 <- need (pX p); y1 <- need (pY p); x2 <- need (pX p2); y2 <- need (pY p2);
  xy <- cAdd (zC zk) x1 y1 x2 y2; Ok (mkPoint xy).
(** a && b with b evaluated only when a holds *)
Definition andR (a : R bool) (b : R bool) : R bool := a' <- a; if (a' : bool) then b else Ok false.

(** crypto.go l.113-126 Add *)
Definition Add (zk : zkparams) (p p2 : ECPoint) : R ECPoint :=
  c1 <- andR (Equal p ZeroPoint) (isOnCurve zk p2);
  if (c1 : bool) then Ok p2
  else
    c2 <- andR (Equal p2 ZeroPoint) (isOnCurve zk p);
    if (c2 : bool) then Ok p else curveAdd zk p p2.

(** crypto.go l.145-149 Neg (the X pointer is shared; ApiMem.v and C74 have the pointers) *)
Definition Neg (zk : zkparams) (p : ECPoint) : R ECPoint :=
  y <- need (pY p); Ok (EP (pX p) (Some ((- y) mod cP (zC zk)))).

(** crypto.go l.128-142 Sub *)
Definition Sub (zk : zkparams) (p p2 : ECPoint) : R ECPoint :=
  c1 <- andR (Equal p ZeroPoint) (isOnCurve zk p2);
  if (c1 : bool) then Neg zk p2
  else
    c2 <- andR (Equal p2 ZeroPoint) (isOnCurve zk p);
    if (c2 : bool) then Ok p
    else temp <- Neg zk p2; curveAdd zk p temp.

(** crypto.go l.151-153 Bytes *)
Definition pBytes (p : ECPoint) : R (list Z) :=
  x <- need (pX p); y <- need (pY p); Ok (bigBytes x ++ bigBytes y).

(** crypto.go l.156-163 WriteECPoint (the boolean: err != nil) *)
Definition WriteECPoint (w : writer) (p : ECPoint) : R (writer * bool) :=
  x <- need (pX p);
  let '(w1, e1) := WriteVarBytes w (bigBytes x) in
  if e1 then Ok (w1, true)
  else y <- need (pY p); Ok (WriteVarBytes w1 (bigBytes y)).

(** crypto.go l.166-176 ReadECPoint.  (The point returned beside an error is Zero;
    see [ReadECPoint_] below for callers that ignore the error.) *)
Definition ReadECPoint (s : list Z) : rd ECPoint :=
  rbind (ReadVarBytes 32 s) (fun xb s1 =>
  rbind (ReadVarBytes 32 s1) (fun yb s2 =>
  ROk (EP (Some (beval xb)) (Some (beval yb))) s2)).

(** crypto.go l.179-186 WriteBigInt *)
Definition WriteBigInt (w : writer) (b : option Z) : R (writer * bool) :=
  z <- need b;
  Ok (WriteVarBytes w ((if z <? 0 then 1 else 0) :: bigBytes z)).

(** crypto.go l.189-199 ReadBigInt: bBytes[1:] panics on an empty slice *)
Definition ReadBigInt (s : list Z) : rd Z :=
  rbind (ReadVarBytes 32 s) (fun bb s1 =>
  match bb with
  | [] => RPanic
  | sgn :: mag => ROk (if sgn =? 1 then - beval mag else beval mag) s1
  end).

(** [v, _ = ReadX(buf)]: the error is dropped, the value is the one returned beside
    it (Zero for a point, nil for an integer), the stream is where the reader left
    it.  [None]: the call panicked. *)
Definition dropErr {A} (d : A) (r : rd A) : R (A * list Z) :=
  match r with ROk a s => Ok (a, s) | RErr _ s => Ok (d, s) | RPanic => Panic end.
Definition ReadECPoint_ (s : list Z) : R (ECPoint * list Z) := dropErr ZeroPoint (ReadECPoint s).
Definition ReadBigInt_ (s : list Z) : R (option Z * list Z) :=
  match ReadBigInt s with ROk z r => Ok (Some z, r) | RErr _ r => Ok (None, r) | RPanic => Panic end.

(** crypto.go l.203-207 CommitR *)
Definition CommitR (zk : zkparams) (pk : ECPoint) (r : option Z) : R ECPoint :=
  r' <- need r;
  let newR := r' mod cN (zC zk) in
  x <- need (pX pk); y <- need (pY pk);
  xy <- cScalarMult (zC zk) x y (bigBytes newR); Ok (mkPoint xy).

(** crypto.go l.211-214 VerifyR *)
Definition VerifyR (zk : zkparams) (rt pk : ECPoint) (r : option Z) : R bool :=
  p <- CommitR zk pk r; Equal p rt.

(** crypto.go l.230-242 PedCommitR *)
Definition PedCommitR (zk : zkparams) (value randomValue : option Z) : R ECPoint :=
  v <- need value; r <- need randomValue;
  let modValue := v mod cN (zC zk) in
  let modRandom := r mod cN (zC zk) in
  lhs <- Mult zk (zG zk) (Some modValue);
  rhs <- Mult zk (zH zk) (Some modRandom);
  Add zk lhs rhs.

(** crypto.go l.220-227 PedCommit: (commitment, randomness, error) *)
Definition PedCommit (zk : zkparams) (value : option Z) (rnd : option Z) : R (ECPoint * option Z * option goerr) :=
  match rnd with
  | None => Ok (ZeroPoint, None, Some ERand)
  | Some u => c <- PedCommitR zk value (Some u); Ok (c, Some u, None)
  end.

(** crypto.go l.245-248 Open *)
Definition Open (zk : zkparams) (value randomValue : option Z) (pcomm : ECPoint) : R bool :=
  c <- PedCommitR zk value randomValue; Equal c pcomm.

(** crypto.go l.254-262 GenerateChallenge *)
Definition GenerateChallenge (sha : list Z -> list Z) (zk : zkparams) (arr : list (list Z)) : Z :=
  beval (sha (concat arr)) mod cN (zC zk).

(** the arguments p1.Bytes(), p2.Bytes(), ... of a challenge, evaluated in order *)
Fixpoint allBytes (ps : list ECPoint) : R (list (list Z)) :=
  match ps with
  | [] => Ok []
  | p :: t => b <- pBytes p; bs <- allBytes t; Ok (b :: bs)
  end.
Definition Challenge (sha : list Z -> list Z) (zk : zkparams) (ps : list ECPoint) : R Z :=
  bs <- allBytes ps; Ok (GenerateChallenge sha zk bs).
