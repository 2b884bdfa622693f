(** What an observer of branches and addresses sees of the VRF code (C89).

    The functions of Group.v, Scalar.v and VRF.v once more, instrumented: next to
    its result each returns the list of what the program counter and the address
    bus show, in order: which field operation runs, which element of which array
    is read, which way a branch goes, how many bytes are hashed.  The straight-line
    functions (EdCode.v, and loops over all limbs or bytes with constant bounds)
    are single events; [exec_trace] shows why this loses nothing.

    Not modelled: instructions whose duration depends on their operands, what the
    compiler makes of the code, and the memory allocator. *)
From Coq Require Import List NArith ZArith Lia Bool Arith String.
From Verif Require Import Base Extra25519 GoInt EdCode Field FieldPow Scalar EdConst Group VRF.
Import ListNotations.
Local Open Scope Z_scope.
Local Open Scope string_scope.

(** no line of its own in /repo: observations, for the functions of crypto/internal/ed25519/edwards25519/edwards25519.go and crypto/vrf/vrf.go *)
Inductive event :=
| Call (f : string)                 (* a function without branches on data *)
| Index (a : string) (i : nat)      (* element [i] of the array [a] is read *)
| Branch (b : bool)                 (* an [if] and the way it goes *)
| Hash (n k : nat).                 (* [n] bytes are hashed to [k] bytes *)
(** no line of its own in /repo: a result together with what was observed *)
Definition leaky (A : Type) : Type := (list event * A)%type.
(** no line of its own in /repo: as above *)
Definition ret {A} (a : A) : leaky A := ([], a).
(** no line of its own in /repo: as above *)
Definition bnd {A B} (m : leaky A) (k : A -> leaky B) : leaky B := (fst m ++ fst (k (snd m)), snd (k (snd m)))%list.
(** no line of its own in /repo: as above *)
Definition obs (e : event) : leaky unit := ([e], tt).
(** no line of its own in /repo: as above *)
Definition call {A} (f : string) (a : A) : leaky A := ([Call f], a).
(** no line of its own in /repo: as above *)
Definition index {A} (a : string) (l : list A) (i : nat) (d : A) : leaky A := ([Index a i], nth i l d).
(** no line of its own in /repo: a Go [if], as above *)
Definition branch {A} (b : bool) (x y : leaky A) : leaky A := bnd (obs (Branch b)) (fun _ => if b then x else y).
Notation "'do!' x <- m ; k" := (bnd m (fun x => k)) (at level 200, x name, m at level 100, k at level 200, right associativity).
(** a Go [for] over fixed positions, as in crypto/internal/ed25519/edwards25519/edwards25519.go:1320-1326 *)
Fixpoint loop {S} (f : S -> nat -> leaky S) (l : list nat) (s : S) : leaky S :=
  match l with [] => ret s | i :: l' => do! s' <- f s i; loop f l' s' end.

(** ** Straight-line code *)
(** The variables (limbs and bytes at constant positions) an expression reads,
    crypto/internal/ed25519/edwards25519/edwards25519.go:83-862, 1480-2252 *)
Fixpoint reads (x : expr) : list var :=
  match x with
  | Ev x => [x]
  | Ec _ => []
  | Eadd _ a b | Esub _ a b | Emul _ a b | Eand a b | Eor a b => (reads a ++ reads b)%list
  | Eshl _ a _ | Eshr a _ | Econv _ a => reads a
  | Eload n a k => map (fun i => (a, (k + i)%nat)) (seq 0 n)
  end.
(** [exec] with what it touches: reads and the variable written,
    crypto/internal/ed25519/edwards25519/edwards25519.go:83-862, 1480-2252 *)
Definition exec_trace (e : env) (p : prog) : list (list var * var) * env :=
  fold_left (fun st s => ((fst st ++ [(reads (snd s), fst s)])%list, upd (snd st) (fst s) (eval (snd st) (snd s)))) p ([], e).

(** ** Field and group *)
(** edwards25519.go:864-917, [for i = 1; i < n; i++ { FeSquare(&t, &t) }] *)
Definition squares_l (n : nat) (t : fe) : leaky fe := loop (fun t _ => call "FeSquare" (FeSquare t)) (seq 1 (n - 1)) t.
(** edwards25519.go:864-917, a squaring and such a loop *)
Definition sq_l (n : nat) (t : fe) : leaky fe := do! t <- call "FeSquare" (FeSquare t); squares_l n t.
(** edwards25519.go:864-917 [FeInvert] *)
Definition FeInvert_l (z : fe) : leaky fe :=
  do! t0 <- call "FeSquare" (FeSquare z);
  do! t1 <- sq_l 2 t0;
  do! t1 <- call "FeMul" (FeMul z t1);
  do! t0 <- call "FeMul" (FeMul t0 t1);
  do! t2 <- call "FeSquare" (FeSquare t0);
  do! t1 <- call "FeMul" (FeMul t1 t2);
  do! t2 <- sq_l 5 t1;
  do! t1 <- call "FeMul" (FeMul t2 t1);
  do! t2 <- sq_l 10 t1;
  do! t2 <- call "FeMul" (FeMul t2 t1);
  do! t3 <- sq_l 20 t2;
  do! t2 <- call "FeMul" (FeMul t3 t2);
  do! t2 <- sq_l 10 t2;
  do! t1 <- call "FeMul" (FeMul t2 t1);
  do! t2 <- sq_l 50 t1;
  do! t2 <- call "FeMul" (FeMul t2 t1);
  do! t3 <- sq_l 100 t2;
  do! t2 <- call "FeMul" (FeMul t3 t2);
  do! t2 <- sq_l 50 t2;
  do! t1 <- call "FeMul" (FeMul t2 t1);
  do! t1 <- sq_l 5 t1;
  call "FeMul" (FeMul t1 t0).
(** 1035-1043, 1079-1087 [ToBytes] *)
Definition to_bytes_l (X Y Z : fe) : leaky bytes :=
  do! recip <- FeInvert_l Z;
  do! x <- call "FeMul" (FeMul X recip);
  do! y <- call "FeMul" (FeMul Y recip);
  do! s <- call "FeToBytes" (fst (FeToBytes y));
  do! neg <- call "FeIsNegative" (fst (FeIsNegative x));
  do! _ <- obs (Index "s" 31);
  ret (xor_top s neg).
(** 1079-1087 *)
Definition ext_ToBytes_l (p : extended) : leaky bytes := to_bytes_l (eX p) (eY p) (eZ p).
(** 1015-1027 [Double] *)
Definition proj_Double_l (p : projective) : leaky completed :=
  do! rX <- call "FeSquare" (FeSquare (prX p));
  do! rZ <- call "FeSquare" (FeSquare (prY p));
  do! rT <- call "FeSquare2" (FeSquare2 (prZ p));
  do! rY <- call "FeAdd" (FeAdd (prX p) (prY p));
  do! t0 <- call "FeSquare" (FeSquare rY);
  do! rY <- call "FeAdd" (FeAdd rZ rX);
  do! rZ <- call "FeSub" (FeSub rZ rX);
  do! rX <- call "FeSub" (FeSub t0 rY);
  do! rT <- call "FeSub" (FeSub rT rZ);
  ret (mkComp rX rY rZ rT).
(** 1066-1071 [ToCached] *)
Definition ext_ToCached_l (p : extended) : leaky cached :=
  do! a <- call "FeAdd" (FeAdd (eY p) (eX p));
  do! b <- call "FeSub" (FeSub (eY p) (eX p));
  do! c <- call "FeCopy" (eZ p);
  do! d <- call "FeMul" (FeMul (eT p) c_d2);
  ret (mkCached a b c d).
(** 1073-1077 [ToProjective] *)
Definition ext_ToProjective_l (p : extended) : leaky projective :=
  do! a <- call "FeCopy" (eX p);
  do! b <- call "FeCopy" (eY p);
  do! c <- call "FeCopy" (eZ p);
  ret (mkProj a b c).
(** 1052-1056 [Double] *)
Definition ext_Double_l (p : extended) : leaky completed := do! q <- ext_ToProjective_l p; proj_Double_l q.
(** 1180-1184 [ToProjective] *)
Definition comp_ToProjective_l (p : completed) : leaky projective :=
  do! a <- call "FeMul" (FeMul (cX p) (cT p));
  do! b <- call "FeMul" (FeMul (cY p) (cZ p));
  do! c <- call "FeMul" (FeMul (cZ p) (cT p));
  ret (mkProj a b c).
(** 1186-1191 [ToExtended] *)
Definition comp_ToExtended_l (p : completed) : leaky extended :=
  do! a <- call "FeMul" (FeMul (cX p) (cT p));
  do! b <- call "FeMul" (FeMul (cY p) (cZ p));
  do! c <- call "FeMul" (FeMul (cZ p) (cT p));
  do! d <- call "FeMul" (FeMul (cX p) (cY p));
  ret (mkExt a b c d).
(** 1058-1064 [GeDouble] *)
Definition GeDouble_l (p : extended) : leaky extended :=
  do! q <- ext_ToProjective_l p;
  do! c <- proj_Double_l q;
  comp_ToExtended_l c.
(** 1199-1213 [geAdd], 1215-1229 [geSub] *)
Definition geAddSub_l (sub : bool) (p : extended) (q : cached) : leaky completed :=
  do! rX <- call "FeAdd" (FeAdd (eY p) (eX p));
  do! rY <- call "FeSub" (FeSub (eY p) (eX p));
  do! rZ <- call "FeMul" (FeMul rX (if sub then caYMinusX q else caYPlusX q));
  do! rY <- call "FeMul" (FeMul rY (if sub then caYPlusX q else caYMinusX q));
  do! rT <- call "FeMul" (FeMul (caT2d q) (eT p));
  do! rX <- call "FeMul" (FeMul (eZ p) (caZ q));
  do! t0 <- call "FeAdd" (FeAdd rX rX);
  do! rX <- call "FeSub" (FeSub rZ rY);
  do! rY <- call "FeAdd" (FeAdd rZ rY);
  do! rZ <- (if sub then call "FeSub" (FeSub t0 rT) else call "FeAdd" (FeAdd t0 rT));
  do! rT <- (if sub then call "FeAdd" (FeAdd t0 rT) else call "FeSub" (FeSub t0 rT));
  ret (mkComp rX rY rZ rT).
(** 1231-1244 [geMixedAdd], 1246-1259 [geMixedSub] *)
Definition geMixedAddSub_l (sub : bool) (p : extended) (q : precomputed) : leaky completed :=
  do! rX <- call "FeAdd" (FeAdd (eY p) (eX p));
  do! rY <- call "FeSub" (FeSub (eY p) (eX p));
  do! rZ <- call "FeMul" (FeMul rX (if sub then yMinusX q else yPlusX q));
  do! rY <- call "FeMul" (FeMul rY (if sub then yPlusX q else yMinusX q));
  do! rT <- call "FeMul" (FeMul (xy2d q) (eT p));
  do! t0 <- call "FeAdd" (FeAdd (eZ p) (eZ p));
  do! rX <- call "FeSub" (FeSub rZ rY);
  do! rY <- call "FeAdd" (FeAdd rZ rY);
  do! rZ <- (if sub then call "FeSub" (FeSub t0 rT) else call "FeAdd" (FeAdd t0 rT));
  do! rT <- (if sub then call "FeAdd" (FeAdd t0 rT) else call "FeSub" (FeSub t0 rT));
  ret (mkComp rX rY rZ rT).
(** 1292-1298 [GeAdd] *)
Definition GeAdd_l (a b : extended) : leaky extended :=
  do! c <- ext_ToCached_l b;
  do! r <- geAddSub_l false a c;
  comp_ToExtended_l r.
(** 1307-1312 [ExtendedGroupElementCMove] *)
Definition ext_CMove_l (t u : extended) (b : Z) : leaky extended :=
  do! x <- call "FeCMove" (FeCMove (eX t) (eX u) b);
  do! y <- call "FeCMove" (FeCMove (eY t) (eY u) b);
  do! z <- call "FeCMove" (FeCMove (eZ t) (eZ u) b);
  do! w <- call "FeCMove" (FeCMove (eT t) (eT u) b);
  ret (mkExt x y z w).
(** 1397-1401 [PreComputedGroupElementCMove] *)
Definition pre_CMove_l (t u : precomputed) (b : Z) : leaky precomputed :=
  do! x <- call "FeCMove" (FeCMove (yPlusX t) (yPlusX u) b);
  do! y <- call "FeCMove" (FeCMove (yMinusX t) (yMinusX u) b);
  do! z <- call "FeCMove" (FeCMove (xy2d t) (xy2d u) b);
  ret (mkPre x y z).

(** ** Scalar multiplication *)
(** 1321, the bit [i] of the scalar *)
Definition scalarBit_l (a : bytes) (i : nat) : leaky Z :=
  do! v <- index "a" a (Nat.div i 8) x00;
  ret (Z.land (Z.shiftr (byteZ v) (Z.of_nat (Nat.modulo i 8))) 1).
(** 1316-1328 [GeScalarMult] *)
Definition GeScalarMult_l (a : bytes) (A : extended) : leaky extended :=
  do! st <- loop (fun st i =>
      let '(p, q) := st in
      do! bit <- scalarBit_l a i;
      do! t <- GeAdd_l q p;
      do! q <- ext_CMove_l q t bit;
      do! p <- GeDouble_l p;
      ret (p, q)) (seq 0 256) (A, ext_Zero);
  ret (snd st).
(** 1403-1417 [selectPoint] *)
Definition selectPoint_l (pos : nat) (b : Z) : leaky precomputed :=
  do! bNegative <- call "negative" (negative b);
  let bAbs := wrap I32 (b - wrap I32 (Z.shiftl (Z.land (wrap I32 (- bNegative)) b) 1)) in
  do! row <- index "base" base pos [];
  do! t <- loop (fun t i =>
      do! u <- index "base[pos]" row i pre_dummy;
      do! eq <- call "equal" (equal bAbs (Z.of_nat i + 1));
      pre_CMove_l t u eq) (seq 0 8) pre_Zero;
  do! x <- call "FeNeg" (FeNeg (xy2d t));
  pre_CMove_l t (mkPre (yMinusX t) (yPlusX t) x) bNegative.
(** 1427-1430: the digits; the positions of [a] are those of the list *)
Fixpoint nibbles_l (i : nat) (a : bytes) : leaky (list Z) :=
  match a with
  | [] => ret []
  | v :: a' =>
    do! _ <- obs (Index "a" i);
    do! l <- nibbles_l (S i) a';
    ret (Z.land (byteZ v) 15 :: Z.land (Z.shiftr (byteZ v) 4) 15 :: l)
  end.
(** 1434-1440: the carries *)
Fixpoint recode_l (i : nat) (carry : Z) (e : list Z) : leaky (list Z) :=
  match e with
  | [] => ret []
  | [x] => do! _ <- obs (Index "e" i); ret [wrapI8 (x + carry)]
  | x :: e' =>
    do! _ <- obs (Index "e" i);
    let x := wrapI8 (x + carry) in
    let carry := Z.shiftr (wrapI8 (x + 8)) 4 in
    do! l <- recode_l (S i) carry e';
    ret (wrapI8 (x - wrapI8 (Z.shiftl carry 4)) :: l)
  end.
(** 1442-1466, the loop bodies *)
Definition smb_add_l (e : list Z) (h : extended) (i : nat) : leaky extended :=
  do! x <- index "e" e i 0;
  do! t <- selectPoint_l (Nat.div i 2) x;
  do! r <- geMixedAddSub_l false h t;
  comp_ToExtended_l r.
(** 1424-1466 [GeScalarMultBase] *)
Definition GeScalarMultBase_l (a : bytes) : leaky extended :=
  do! e <- nibbles_l 0 a;
  do! e <- recode_l 0 0 e;
  do! h <- loop (smb_add_l e) (map (fun k => (2 * k + 1)%nat) (seq 0 32)) ext_Zero;
  do! r <- ext_Double_l h;
  do! s <- comp_ToProjective_l r;
  do! r <- proj_Double_l s;
  do! s <- comp_ToProjective_l r;
  do! r <- proj_Double_l s;
  do! s <- comp_ToProjective_l r;
  do! r <- proj_Double_l s;
  do! h <- comp_ToExtended_l r;
  loop (smb_add_l e) (map (fun k => (2 * k)%nat) (seq 0 32)) h.

(** 1261-1289 [slide]: the carry loop, 1276-1282 *)
Fixpoint slide_carry_l (r : list Z) : leaky (list Z) :=
  match r with
  | [] => ret []
  | x :: r' => branch (Z.eqb x 0) (ret (1 :: r')) (do! l <- slide_carry_l r'; ret (0 :: l))
  end.
(** 1268-1287 *)
Fixpoint slide_inner_l (n b : nat) (x : Z) (rest : list Z) : leaky (Z * list Z) :=
  match n with
  | O => ret (x, rest)
  | S n' =>
    branch (Nat.leb b (List.length rest))
      (do! y <- ret (nth (b - 1) rest 0);
       branch (Z.eqb y 0) (slide_inner_l n' (S b) x rest)
         (let s := wrapI8 (Z.shiftl y (Z.of_nat b)) in
          branch (Z.leb (wrapI8 (x + s)) 15)
            (slide_inner_l n' (S b) (wrapI8 (x + s)) (update (b - 1) 0 rest))
            (branch (Z.leb (-15) (wrapI8 (x - s)))
               (do! c <- slide_carry_l (skipn (b - 1) rest);
                slide_inner_l n' (S b) (wrapI8 (x - s)) (firstn (b - 1) rest ++ c)%list)
               (ret (x, rest)))))
      (ret (x, rest))
  end.
(** 1266-1289 *)
Fixpoint slide_loop_l (n : nat) (r : list Z) : leaky (list Z) :=
  match n, r with
  | S n', x :: rest =>
    do! p <- branch (Z.eqb x 0) (ret (x, rest)) (slide_inner_l 6 1 x rest);
    do! l <- slide_loop_l n' (snd p);
    ret (fst p :: l)
  | _, _ => ret r
  end.
(** 1261-1289 [slide] *)
Definition slide_l (a : bytes) : leaky (list Z) :=
  do! _ <- loop (fun _ i => obs (Index "a" (Nat.div i 8))) (seq 0 256) tt;
  slide_loop_l 256 (map (scalarBit a) (seq 0 256)).
(** 1347-1355 *)
Fixpoint table_from_l (A2 : extended) (n : nat) (c : cached) : leaky (list cached) :=
  match n with
  | O => ret [c]
  | S n' =>
    do! t <- geAddSub_l false A2 c;
    do! u <- comp_ToExtended_l t;
    do! c' <- ext_ToCached_l u;
    do! l <- table_from_l A2 n' c';
    ret (c :: l)
  end.
(** 1365-1383 *)
Definition dsm_round_l (Ai : list cached) (r : projective) (ab : Z * Z) : leaky projective :=
  let '(x, y) := ab in
  do! t <- proj_Double_l r;
  do! t <- branch (Z.ltb 0 x)
    (do! u <- comp_ToExtended_l t; do! c <- index "Ai" Ai (Z.to_nat (Z.quot x 2)) ca_dummy; geAddSub_l false u c)
    (branch (Z.ltb x 0)
      (do! u <- comp_ToExtended_l t; do! c <- index "Ai" Ai (Z.to_nat (Z.quot (- x) 2)) ca_dummy; geAddSub_l true u c)
      (ret t));
  do! t <- branch (Z.ltb 0 y)
    (do! u <- comp_ToExtended_l t; do! c <- index "bi" bi (Z.to_nat (Z.quot y 2)) pre_dummy; geMixedAddSub_l false u c)
    (branch (Z.ltb y 0)
      (do! u <- comp_ToExtended_l t; do! c <- index "bi" bi (Z.to_nat (Z.quot (- y) 2)) pre_dummy; geMixedAddSub_l true u c)
      (ret t));
  comp_ToProjective_l t.
(** 1359-1363 *)
Fixpoint skip_zeros_l (l : list (Z * Z)) : leaky (list (Z * Z)) :=
  match l with
  | (x, y) :: l' => branch (negb (Z.eqb x 0) || negb (Z.eqb y 0)) (ret l) (skip_zeros_l l')
  | [] => ret []
  end.
(** 1365-1383, the loop *)
Fixpoint dsm_loop_l (Ai : list cached) (l : list (Z * Z)) (r : projective) : leaky projective :=
  match l with [] => ret r | ab :: l' => do! r' <- dsm_round_l Ai r ab; dsm_loop_l Ai l' r' end.
(** 1334-1383 [GeDoubleScalarMultVartime] *)
Definition GeDoubleScalarMultVartime_l (a : bytes) (A : extended) (b : bytes) : leaky projective :=
  do! aS <- slide_l a;
  do! bS <- slide_l b;
  do! c <- ext_ToCached_l A;
  do! t <- ext_Double_l A;
  do! A2 <- comp_ToExtended_l t;
  do! Ai <- table_from_l A2 7 c;
  do! l <- skip_zeros_l (rev (combine aS bS));
  dsm_loop_l Ai l proj_Zero.

(** ** Scalars modulo L *)
(** 1912-1928 [ScNeg] *)
Fixpoint ScNeg_loop_l (i : nat) (carry : Z) (l : list Z) (s : bytes) {struct l} : leaky bytes :=
  match l, s with
  | x :: l', b :: s' =>
    do! _ <- obs (Index "l" i);
    do! _ <- obs (Index "s" i);
    do! p <- call "round" (ScNeg_step carry x (byteZ b));
    do! r <- ScNeg_loop_l (S i) (snd p) l' s';
    ret (fst p :: r)
  | _, _ => ret []
  end.
(** 1912-1928 *)
Definition ScNeg_l' (s : bytes) : leaky bytes := ScNeg_loop_l 0 0 ScNeg_l s.

(** ** Hashing to the curve *)
(** 1164-1177, the end of [FromParityAndY] *)
Definition finish_l (bit : Z) (y X : fe) : leaky (bool * extended) :=
  do! nX <- call "FeIsNegative" (FeIsNegative X);
  do! X <- branch (Z.eqb (fst nX) bit) (ret (snd nX)) (call "FeNeg" (FeNeg (snd nX)));
  do! T <- call "FeMul" (FeMul X y);
  ret (true, mkExt X y FeOne T).
(** 1134-1178 [FromParityAndY] *)
Definition FromParityAndY_l (T0 : fe) (bit : Z) (y : fe) : leaky (bool * extended) :=
  do! u <- call "FeSquare" (FeSquare y);
  do! v <- call "FeMul" (FeMul u c_d);
  do! u <- call "FeSub" (FeSub u FeOne);
  do! v <- call "FeAdd" (FeAdd v FeOne);
  do! v3 <- call "FeSquare" (FeSquare v);
  do! v3 <- call "FeMul" (FeMul v3 v);
  do! X <- call "FeSquare" (FeSquare v3);
  do! X <- call "FeMul" (FeMul X v);
  do! X <- call "FeMul" (FeMul X u);
  do! X <- call "fePow22523" (fePow22523 X);
  do! X <- call "FeMul" (FeMul X v3);
  do! X <- call "FeMul" (FeMul X u);
  do! vxx <- call "FeSquare" (FeSquare X);
  do! vxx <- call "FeMul" (FeMul vxx v);
  do! check <- call "FeSub" (FeSub vxx u);
  do! nz <- call "FeIsNonZero" (fst (FeIsNonZero check));
  branch (Z.eqb nz 1)
    (do! check <- call "FeAdd" (FeAdd vxx u);
     do! nz <- call "FeIsNonZero" (fst (FeIsNonZero check));
     branch (Z.eqb nz 1) (ret (false, mkExt X y FeOne T0))
       (do! X <- call "FeMul" (FeMul X c_SqrtM1);
        do! X <- call "FeToBytes" (snd (FeToBytes X));
        finish_l bit y X))
    (finish_l bit y X).
(** extra25519.go:322-376 [HashToEdwards], [representativeToMontgomeryX] and
    [montgomeryXToEdwardsY] (both without branches on data) *)
Definition HashToEdwards_l (T0 : fe) (h : bytes) : leaky (option extended) :=
  do! b <- index "h" h 31 x00;
  let bit := Z.shiftr (byteZ b) 7 in
  do! Y <- call "FeFromBytes" (FeFromBytes (firstn 31 h ++ [toByte (Z.land (byteZ b) 127)])%list);
  do! X <- call "representativeToMontgomeryX" (representativeToMontgomeryX Y);
  do! Y <- call "montgomeryXToEdwardsY" (montgomeryXToEdwardsY X);
  do! r <- FromParityAndY_l T0 bit Y;
  branch (fst r) (ret (Some (snd r))) (ret None).

(** ** crypto/vrf *)
Section VRF.
  Variable xof : bytes -> nat -> bytes.
  (** [hash.Write], [hash.Read] of crypto/vrf/vrf.go *)
  Definition hash_l (m : bytes) (n : nat) : leaky bytes := ([Hash (List.length m) n], xof m n).
  (** vrf.go:77-87 [expandSecret] *)
  Definition expandSecret_l (sk : bytes) : leaky (bytes * bytes) :=
    do! h <- hash_l (firstn 32 sk) 64;
    do! _ <- obs (Index "x" 0);
    do! _ <- obs (Index "x" 31);
    ret (clamp (firstn 32 h), skipn 32 h).
  (** 50-68 [GenerateKey], after the seed has been read *)
  Definition GenerateKey_l (seed : bytes) : leaky bytes :=
    do! xr <- expandSecret_l seed;
    do! P <- GeScalarMultBase_l (fst xr);
    do! pk <- ext_ToBytes_l P;
    ret (seed ++ pk)%list.
  (** 106-116 [hashToCurve] *)
  Definition hashToCurve_l (m : bytes) : leaky (option extended) :=
    do! h <- hash_l m 32;
    do! e <- HashToEdwards_l FeZero h;
    match e with
    | None => ret None
    | Some p => do! p <- GeDouble_l p; do! p <- GeDouble_l p; do! p <- GeDouble_l p; ret (Some p)
    end.
  (** 91-104 [Compute] *)
  Definition Compute_l (sk m : bytes) : leaky (option bytes) :=
    do! xr <- expandSecret_l sk;
    do! o <- hashToCurve_l m;
    match o with
    | None => ret None
    | Some h =>
      do! ii <- GeScalarMult_l (fst xr) h;
      do! iiB <- ext_ToBytes_l ii;
      do! v <- hash_l (iiB ++ m)%list 32;
      ret (Some v)
    end.
  (** 121-172 [Prove] *)
  Definition Prove_l (sk m : bytes) : leaky (option (bytes * bytes)) :=
    do! xr <- expandSecret_l sk;
    do! o <- hashToCurve_l m;
    match o with
    | None => ret None
    | Some h =>
      do! hB <- ext_ToBytes_l h;
      do! ii <- GeScalarMult_l (fst xr) h;
      do! hxB <- ext_ToBytes_l ii;
      do! rH <- hash_l (snd xr ++ skipn 32 sk ++ m)%list 64;
      do! r <- call "ScReduce" (ScReduce rH);
      do! gr <- GeScalarMultBase_l r;
      do! hr <- GeScalarMult_l r h;
      do! grB <- ext_ToBytes_l gr;
      do! hrB <- ext_ToBytes_l hr;
      do! sH <- hash_l (BaseBytes ++ hB ++ skipn 32 sk ++ hxB ++ grB ++ hrB ++ m)%list 64;
      do! s <- call "ScReduce" (ScReduce sH);
      do! minusS <- ScNeg_l' s;
      do! t <- call "ScMulAdd" (ScMulAdd (fst xr) minusS r);
      do! v <- hash_l (hxB ++ m)%list 32;
      ret (Some (v, (s ++ t ++ hxB)%list))
    end.
End VRF.
