(** PropertiesMat.v — the property theorems C01-C16 (matrices and vectors) and nothing else.  Each theorem is closed by a
    lemma of the P*.v files; below it, [Print Assumptions] and an [Example] showing that a concrete case meets its
    hypotheses.  Scalars: [Nm : Num] is any arithmetic, [Exact eps zs] exact extended reals, [Ieee prec emax lm] IEEE 754
    of any format, [F64 lm] Rust's f64. *)
From Coq Require Import Reals List ZArith NArith Bool Lra Lia.
From Flocq Require Import Core BinarySingleNaN.
Import ListNotations.
From Verif Require Import Base Num Vec Mat Float Exact SpecMat SpecReal SpecGeom ExactFacts FloatFacts Order
  PMat PMat2 PMat3 PInv PEqual PVec PMat4 PMat5.
Local Open Scope R_scope.

(** concrete values for the examples: the f64 nearest to an integer, and matrices 1..9, 1..16 of such *)
Definition z64 (lm : libm f64) (z : Z) : F64 lm := @f_int 53 1024 f64_prec_gt_0 f64_prec_lt_emax z.
Definition ex9 (lm : libm f64) : arr9 (F64 lm) :=
  A9 (z64 lm 1) (z64 lm 2) (z64 lm 3) (z64 lm 4) (z64 lm 5) (z64 lm 6) (z64 lm 7) (z64 lm 8) (z64 lm 9).
Definition ex16 (lm : libm f64) : arr16 (F64 lm) :=
  A16 (z64 lm 1) (z64 lm 2) (z64 lm 3) (z64 lm 4) (z64 lm 5) (z64 lm 6) (z64 lm 7) (z64 lm 8)
      (z64 lm 9) (z64 lm 10) (z64 lm 11) (z64 lm 12) (z64 lm 13) (z64 lm 14) (z64 lm 15) (z64 lm 16).

(** ---- C01: entries read back independently of the layout ---- *)
Theorem C01_init_index3 {Nm : Num} (arr : arr9 Nm) (row_major chk : bool) (i j : N) :
  (i < 3)%N -> (j < 3)%N ->
  mat3_index chk (mat3_init arr row_major) i j = idx (list9 arr) (N.to_nat (3 * i + j)).
Proof. exact (init3_index arr row_major chk i j). Qed.
Print Assumptions C01_init_index3.
Theorem C01_init_index4 {Nm : Num} (arr : arr16 Nm) (row_major chk : bool) (i j : N) :
  (i < 4)%N -> (j < 4)%N ->
  mat4_index chk (mat4_init arr row_major) i j = idx (list16 arr) (N.to_nat (4 * i + j)).
Proof. exact (init4_index arr row_major chk i j). Qed.
Print Assumptions C01_init_index4.
(** and that element exists: the read never panics *)
Theorem C01_no_panic {Nm : Num} (a : arr9 Nm) (b : arr16 Nm) (row_major : bool) :
  repr3 (mat3_init a row_major) (rows9 a) /\ repr4 (mat4_init b row_major) (rows16 b) /\
  m3_rm (mat3_init a row_major) = row_major /\ m4_rm (mat4_init b row_major) = row_major.
Proof. exact (conj (init3_repr a row_major) (conj (init4_repr b row_major) (conj (init3_rm a row_major) (init4_rm b row_major)))). Qed.
Print Assumptions C01_no_panic.
Example C01_case lm : mat4_index true (mat4_init (ex16 lm) false) 2 1 = Ok (z64 lm 10).
Proof. reflexivity. Qed.

(** ---- C02: out-of-range access is rejected: false of the code ---- *)
(** For every arithmetic, both layouts and both build modes there is an out-of-range pair that reads another entry. *)
Theorem C02_refuted {Nm : Num} (m : mat3 Nm) (m' : mat4 Nm) (chk : bool) :
  (exists i j i' j', ((3 <= i) \/ (3 <= j))%N /\ (i' < 3)%N /\ (j' < 3)%N /\ (i, j) <> (i', j') /\
     mat3_index chk m i j = mat3_index chk m i' j' /\ exists x, mat3_index chk m i j = Ok x) /\
  (exists i j i' j', ((4 <= i) \/ (4 <= j))%N /\ (i' < 4)%N /\ (j' < 4)%N /\ (i, j) <> (i', j') /\
     mat4_index chk m' i j = mat4_index chk m' i' j' /\ exists x, mat4_index chk m' i j = Ok x).
Proof. exact (conj (index3_oob chk m) (index4_oob chk m')). Qed.
Print Assumptions C02_refuted.
(** What does hold (full statement: i >= n or j >= n panics): with overflow checks the row index of a row-major and the
    column index of a column-major matrix are range checked. *)
Theorem C02_partial {Nm : Num} (m : mat3 Nm) (m' : mat4 Nm) (i j : N) :
  ((3 <= (if m3_rm m then i else j))%N -> exists k, mat3_index true m i j = Panic k) /\
  ((4 <= (if m4_rm m' then i else j))%N -> exists k, mat4_index true m' i j = Panic k).
Proof. exact (conj (index3_slow_checked m i j) (index4_slow_checked m' i j)). Qed.
Print Assumptions C02_partial.
(** The exact rule, for all u64 pairs: the linear offset (modulo 2^64 without overflow checks) is what is checked. *)
Theorem C02_exact {Nm : Num} (m : mat3 Nm) (m' : mat4 Nm) (chk : bool) (i j : N) :
  let o3 := (if m3_rm m then 3 * i + j else i + 3 * j)%N in
  let o4 := (if m4_rm m' then 4 * i + j else i + 4 * j)%N in
  let k3 := if chk then o3 else (o3 mod 2 ^ 64)%N in
  let k4 := if chk then o4 else (o4 mod 2 ^ 64)%N in
  ((k3 < 9)%N -> mat3_index chk m i j = idx (list9 (m3_val m)) (N.to_nat k3)) /\
  ((9 <= k3)%N -> exists k, mat3_index chk m i j = Panic k) /\
  ((k4 < 16)%N -> mat4_index chk m' i j = idx (list16 (m4_val m')) (N.to_nat k4)) /\
  ((16 <= k4)%N -> exists k, mat4_index chk m' i j = Panic k).
Proof. exact (index_rule m m' chk i j). Qed.
Print Assumptions C02_exact.
Example C02_case lm : mat3_index true (mat3_init (ex9 lm) true) 0 5 = Ok (z64 lm 6) /\
  mat3_index true (mat3_init (ex9 lm) true) 3 0 = Panic PIndex /\
  mat3_index false (mat3_init (ex9 lm) true) 6148914691236517206 0 = Ok (z64 lm 3).
Proof. repeat split. Qed.

(** ---- C03: writing one entry changes exactly that entry ---- *)
Theorem C03_set3 {Nm : Num} (m : mat3 Nm) (f : lmat Nm) (chk : bool) (i j : N) (v : Nm) :
  repr3 m f -> (i < 3)%N -> (j < 3)%N ->
  exists m', mat3_set chk m i j v = Ok m' /\ m3_rm m' = m3_rm m /\
    repr3 m' (fun p q => if ((p =? i) && (q =? j))%N then v else f p q).
Proof. exact (set3_repr m f chk i j v). Qed.
Print Assumptions C03_set3.
Theorem C03_set4 {Nm : Num} (m : mat4 Nm) (f : lmat Nm) (chk : bool) (i j : N) (v : Nm) :
  repr4 m f -> (i < 4)%N -> (j < 4)%N ->
  exists m', mat4_set chk m i j v = Ok m' /\ m4_rm m' = m4_rm m /\
    repr4 m' (fun p q => if ((p =? i) && (q =? j))%N then v else f p q).
Proof. exact (set4_repr m f chk i j v). Qed.
Print Assumptions C03_set4.
(** every stored matrix represents some logical matrix, so the hypotheses are met by every matrix *)
Theorem C03_repr_total {Nm : Num} (m : mat3 Nm) (m' : mat4 Nm) : (exists f, repr3 m f) /\ (exists f, repr4 m' f).
Proof. exact (conj (ex_intro _ _ (repr3_log m)) (ex_intro _ _ (repr4_log m'))). Qed.
Print Assumptions C03_repr_total.
Example C03_case lm : exists m', mat3_set true (mat3_init (ex9 lm) false) 0 2 (z64 lm 42) = Ok m' /\
  mat3_index true m' 0 2 = Ok (z64 lm 42) /\ mat3_index true m' 2 0 = Ok (z64 lm 7).
Proof. eexists. repeat split. Qed.

(** ---- C04: transpose ---- *)
Theorem C04_transpose {Nm : Num} (m : mat3 Nm) (m' : mat4 Nm) (f g : lmat Nm) : repr3 m f -> repr4 m' g ->
  (exists t, mat3_transpose m = Ok t /\ m3_rm t = m3_rm m /\ repr3 t (fun i j => f j i) /\ mat3_transpose t = Ok m) /\
  (exists t, mat4_transpose m' = Ok t /\ m4_rm t = m4_rm m' /\ repr4 t (fun i j => g j i) /\ mat4_transpose t = Ok m').
Proof. exact (transpose_all m m' f g). Qed.
Print Assumptions C04_transpose.
Theorem C04_transpose_self {Nm : Num} (m : mat3 Nm) (m' : mat4 Nm) :
  mat3_transpose_self m = mat3_transpose m /\ mat4_transpose_self m' = mat4_transpose m'.
Proof. exact (conj (transpose3_self m) (transpose4_self m')). Qed.
Print Assumptions C04_transpose_self.
(** vectors: components unchanged, round trip *)
Theorem C04_vectors {Nm : Num} (a : mat2x1 Nm) (b : mat3x1 Nm) (c : mat4x1 Nm) (d : mat1x2 Nm) (e : mat1x3 Nm) (f : mat1x4 Nm) :
  (v1x2 (mat2x1_transpose a) = v2x1 a /\ mat1x2_transpose (mat2x1_transpose a) = a) /\
  (v1x3 (mat3x1_transpose b) = v3x1 b /\ mat1x3_transpose (mat3x1_transpose b) = b) /\
  (v1x4 (mat4x1_transpose c) = v4x1 c /\ mat1x4_transpose (mat4x1_transpose c) = c) /\
  (v2x1 (mat1x2_transpose d) = v1x2 d /\ mat2x1_transpose (mat1x2_transpose d) = d) /\
  (v3x1 (mat1x3_transpose e) = v1x3 e /\ mat3x1_transpose (mat1x3_transpose e) = e) /\
  (v4x1 (mat1x4_transpose f) = v1x4 f /\ mat4x1_transpose (mat1x4_transpose f) = f).
Proof. exact (transpose_vectors a b c d e f). Qed.
Print Assumptions C04_vectors.
Example C04_case lm : mat3_transpose (mat3_init (ex9 lm) true) =
  Ok (mat3_init (A9 (z64 lm 1) (z64 lm 4) (z64 lm 7) (z64 lm 2) (z64 lm 5) (z64 lm 8) (z64 lm 3) (z64 lm 6) (z64 lm 9)) true).
Proof. reflexivity. Qed.

(** ---- C05: matrix product ---- *)
Theorem C05_mul {Nm : Num} (a b : mat3 Nm) (c d : mat4 Nm) (f g h k : lmat Nm) :
  repr3 a f -> repr3 b g -> repr4 c h -> repr4 d k ->
  (m3_rm a = m3_rm b -> exists r, mat3_mul a b = Ok (Some r) /\ m3_rm r = m3_rm a /\
     repr3 r (fun i j => nadd Nm (nadd Nm (nmul Nm (f i 0%N) (g 0%N j)) (nmul Nm (f i 1%N) (g 1%N j)))
                                 (nmul Nm (f i 2%N) (g 2%N j)))) /\
  (m3_rm a <> m3_rm b -> mat3_mul a b = Panic PAssert) /\
  (m4_rm c = m4_rm d -> exists r, mat4_mul c d = Ok (Some r) /\ m4_rm r = m4_rm c /\
     repr4 r (fun i j => nadd Nm (nadd Nm (nadd Nm (nmul Nm (h i 0%N) (k 0%N j)) (nmul Nm (h i 1%N) (k 1%N j)))
                                          (nmul Nm (h i 2%N) (k 2%N j))) (nmul Nm (h i 3%N) (k 3%N j)))) /\
  (m4_rm c <> m4_rm d -> mat4_mul c d = Panic PAssert).
Proof.
  exact (fun Ha Hb Hc Hd => conj (fun E => mul3_repr a b f g E Ha Hb) (conj (mul3_mixed a b)
         (conj (fun E => mul4_repr c d h k E Hc Hd) (mul4_mixed c d)))).
Qed.
Print Assumptions C05_mul.
Example C05_case lm : exists r x, mat3_mul (mat3_init (ex9 lm) false) (mat3_init (ex9 lm) false) = Ok (Some r) /\
  mat3_index true r 1 2 = Ok x /\ B2SF (x : f64) = B2SF (z64 lm 96 : f64).
Proof. do 2 eexists. split; [reflexivity |]. split; [reflexivity |]. vm_compute. reflexivity. Qed.

(** ---- C06: matrix-vector and vector-matrix products ---- *)
Theorem C06_matrix_vector {Nm : Num} (a : mat3 Nm) (b : mat4 Nm) (v : mat3x1 Nm) (w : mat4x1 Nm) (f g : lmat Nm) (p q : lvec Nm) :
  repr3 a f -> repr4 b g -> reprc3 v p -> reprc4 w q ->
  (exists r, mat3_mul_mat3x1 a v = Ok (Some r) /\ reprc3 r (fun i => sum3 (fun k => nmul Nm (f i k) (p k)))) /\
  (exists r, mat4_mul_mat4x1 b w = Ok (Some r) /\ reprc4 r (fun i => sum4 (fun k => nmul Nm (g i k) (q k)))).
Proof. exact (fun Ha Hb Hv Hw => conj (mulv3_repr a v f p Ha Hv) (mulv4_repr b w g q Hb Hw)). Qed.
Print Assumptions C06_matrix_vector.
Theorem C06_vector_matrix {Nm : Num} (a : mat3 Nm) (b : mat4 Nm) (v : mat1x3 Nm) (w : mat1x4 Nm) (f g : lmat Nm) (p q : lvec Nm) :
  repr3 a f -> repr4 b g -> reprr3 v p -> reprr4 w q ->
  (exists r, mat1x3_mul_mat3x3 v a = Ok (Some r) /\ reprr3 r (fun j => sum3 (fun k => nmul Nm (f k j) (p k)))) /\
  (exists r, mat1x4_mul_mat4x4 w b = Ok (Some r) /\ reprr4 r (fun j => sum4 (fun k => nmul Nm (g k j) (q k)))).
Proof. exact (fun Ha Hb Hv Hw => conj (vmul3_repr a v f p Ha Hv) (vmul4_repr b w g q Hb Hw)). Qed.
Print Assumptions C06_vector_matrix.
(** v * M = (M^T * v^T)^T, the same scalars *)
Theorem C06_transpose {Nm : Num} (a : mat3 Nm) (b : mat4 Nm) (v : mat1x3 Nm) (w : mat1x4 Nm) :
  mat1x3_mul_mat3x3 v a = (let! t := mat3_transpose a in let! o := mat3_mul_mat3x1 t (mat1x3_transpose v) in
                           Ok (option_map mat3x1_transpose o)) /\
  mat1x4_mul_mat4x4 w b = (let! t := mat4_transpose b in let! o := mat4_mul_mat4x1 t (mat1x4_transpose w) in
                           Ok (option_map mat4x1_transpose o)).
Proof. exact (conj (vmul3_transpose a v) (vmul4_transpose b w)). Qed.
Print Assumptions C06_transpose.
Example C06_case lm : exists r x, mat3_mul_mat3x1 (mat3_init (ex9 lm) false) (M3x1 (A3 (z64 lm 1) (z64 lm 0) (z64 lm (-1)))) = Ok (Some r) /\
  mat3x1_index r 2 = Ok x /\ B2SF (x : f64) = B2SF (z64 lm (-2) : f64).
Proof. do 2 eexists. split; [reflexivity |]. split; [reflexivity |]. vm_compute. reflexivity. Qed.

(** ---- C07: matrix algebra ---- *)
Theorem C07_assoc (eps : R) (zs : XR -> bool) (a b c : mat3 (Exact eps zs)) (a' b' c' : mat4 (Exact eps zs)) (f g h f' g' h' : rmat) :
  m3_rm a = m3_rm b -> m3_rm b = m3_rm c -> m4_rm a' = m4_rm b' -> m4_rm b' = m4_rm c' ->
  repr3 a (fin f : lmat (Exact eps zs)) -> repr3 b (fin g : lmat (Exact eps zs)) -> repr3 c (fin h : lmat (Exact eps zs)) ->
  repr4 a' (fin f' : lmat (Exact eps zs)) -> repr4 b' (fin g' : lmat (Exact eps zs)) -> repr4 c' (fin h' : lmat (Exact eps zs)) ->
  (exists ab bc r, mat3_mul a b = Ok (Some ab) /\ mat3_mul b c = Ok (Some bc) /\
     mat3_mul ab c = Ok (Some r) /\ mat3_mul a bc = Ok (Some r)) /\
  (exists ab bc r, mat4_mul a' b' = Ok (Some ab) /\ mat4_mul b' c' = Ok (Some bc) /\
     mat4_mul ab c' = Ok (Some r) /\ mat4_mul a' bc = Ok (Some r)).
Proof.
  exact (fun E1 E2 E3 E4 A B C A' B' C' => conj (mul3_assoc eps zs a b c f g h E1 E2 A B C)
           (mul4_assoc eps zs a' b' c' f' g' h' E3 E4 A' B' C')).
Qed.
Print Assumptions C07_assoc.
Theorem C07_distributive3 (eps : R) (zs : XR -> bool) (a b c : mat3 (Exact eps zs)) (f g h : rmat) :
  m3_rm a = m3_rm b -> m3_rm b = m3_rm c ->
  repr3 a (fin f : lmat (Exact eps zs)) -> repr3 b (fin g : lmat (Exact eps zs)) -> repr3 c (fin h : lmat (Exact eps zs)) ->
  (exists bc ab ac r, mat3_plus b c = Some bc /\ mat3_mul a b = Ok (Some ab) /\ mat3_mul a c = Ok (Some ac) /\
     mat3_mul a bc = Ok (Some r) /\ mat3_plus ab ac = Some r) /\
  (exists ab ac bc r, mat3_plus a b = Some ab /\ mat3_mul a c = Ok (Some ac) /\ mat3_mul b c = Ok (Some bc) /\
     mat3_mul ab c = Ok (Some r) /\ mat3_plus ac bc = Some r).
Proof. exact (mul3_distr eps zs a b c f g h). Qed.
Print Assumptions C07_distributive3.
Theorem C07_distributive4 (eps : R) (zs : XR -> bool) (a b c : mat4 (Exact eps zs)) (f g h : rmat) :
  m4_rm a = m4_rm b -> m4_rm b = m4_rm c ->
  repr4 a (fin f : lmat (Exact eps zs)) -> repr4 b (fin g : lmat (Exact eps zs)) -> repr4 c (fin h : lmat (Exact eps zs)) ->
  (exists bc ab ac r, mat4_plus b c = Some bc /\ mat4_mul a b = Ok (Some ab) /\ mat4_mul a c = Ok (Some ac) /\
     mat4_mul a bc = Ok (Some r) /\ mat4_plus ab ac = Some r) /\
  (exists ab ac bc r, mat4_plus a b = Some ab /\ mat4_mul a c = Ok (Some ac) /\ mat4_mul b c = Ok (Some bc) /\
     mat4_mul ab c = Ok (Some r) /\ mat4_plus ac bc = Some r).
Proof. exact (mul4_distr eps zs a b c f g h). Qed.
Print Assumptions C07_distributive4.
Theorem C07_unit (eps : R) (zs : XR -> bool) (a : mat3 (Exact eps zs)) (b : mat4 (Exact eps zs)) (f g : rmat) :
  m3_rm a = true -> m4_rm b = true -> repr3 a (fin f : lmat (Exact eps zs)) -> repr4 b (fin g : lmat (Exact eps zs)) ->
  (exists i, mat3_iden = Ok i /\ mat3_mul a i = Ok (Some a) /\ mat3_mul i a = Ok (Some a)) /\
  (exists i, mat4_iden = Ok i /\ mat4_mul b i = Ok (Some b) /\ mat4_mul i b = Ok (Some b)).
Proof. exact (fun E1 E2 A B => conj (mul3_unit eps zs a f E1 A) (mul4_unit eps zs b g E2 B)). Qed.
Print Assumptions C07_unit.
(** IEEE arithmetic, bit for bit *)
Theorem C07_transpose_ieee prec emax {Hp : Prec_gt_0 prec} {Hm : Prec_lt_emax prec emax} lm
  (a b : mat3 (@Ieee prec emax Hp Hm lm)) (a' b' : mat4 (@Ieee prec emax Hp Hm lm)) :
  m3_rm a = m3_rm b -> m4_rm a' = m4_rm b' ->
  (exists c ct at' bt, mat3_mul a b = Ok (Some c) /\ mat3_transpose c = Ok ct /\
     mat3_transpose a = Ok at' /\ mat3_transpose b = Ok bt /\ mat3_mul bt at' = Ok (Some ct)) /\
  (exists c ct at' bt, mat4_mul a' b' = Ok (Some c) /\ mat4_transpose c = Ok ct /\
     mat4_transpose a' = Ok at' /\ mat4_transpose b' = Ok bt /\ mat4_mul bt at' = Ok (Some ct)).
Proof. exact (fun E1 E2 => conj (mul3_transpose_ieee prec emax lm a b E1) (mul4_transpose_ieee prec emax lm a' b' E2)). Qed.
Print Assumptions C07_transpose_ieee.
(** A*iden = iden*A = A as numbers ([neqb] is Rust's [==]) for finite A *)
Theorem C07_unit_ieee3 prec emax {Hp : Prec_gt_0 prec} {Hm : Prec_lt_emax prec emax} lm
  (a : mat3 (@Ieee prec emax Hp Hm lm)) f : m3_rm a = true -> repr3 a f ->
  (forall i j, (i < 3)%N -> (j < 3)%N -> is_finite (f i j : binary_float prec emax) = true) ->
  exists i l r g h, mat3_iden = Ok i /\ mat3_mul a i = Ok (Some r) /\ mat3_mul i a = Ok (Some l) /\
    m3_rm r = true /\ m3_rm l = true /\ repr3 r g /\ repr3 l h /\
    forall p q, (p < 3)%N -> (q < 3)%N -> neqb (g p q) (f p q) = true /\ neqb (h p q) (f p q) = true.
Proof. exact (unit3_ieee prec emax lm a f). Qed.
Print Assumptions C07_unit_ieee3.
Theorem C07_unit_ieee4 prec emax {Hp : Prec_gt_0 prec} {Hm : Prec_lt_emax prec emax} lm
  (a : mat4 (@Ieee prec emax Hp Hm lm)) f : m4_rm a = true -> repr4 a f ->
  (forall i j, (i < 4)%N -> (j < 4)%N -> is_finite (f i j : binary_float prec emax) = true) ->
  exists i l r g h, mat4_iden = Ok i /\ mat4_mul a i = Ok (Some r) /\ mat4_mul i a = Ok (Some l) /\
    m4_rm r = true /\ m4_rm l = true /\ repr4 r g /\ repr4 l h /\
    forall p q, (p < 4)%N -> (q < 4)%N -> neqb (g p q) (f p q) = true /\ neqb (h p q) (f p q) = true.
Proof. exact (unit4_ieee prec emax lm a f). Qed.
Print Assumptions C07_unit_ieee4.
(** a real matrix stored in the exact arithmetic, and a finite f64 matrix *)
Example C07_case eps zs : exists m : mat3 (Exact eps zs), m3_rm m = true /\ repr3 m (fin (fun i j => IZR (Z.of_N (i + 2 * j)))).
Proof.
  exists (mat3_init (A9 (Fin 0) (Fin 2) (Fin 4) (Fin 1) (Fin 3) (Fin 5) (Fin 2) (Fin 4) (Fin 6) : arr9 (Exact eps zs)) true).
  split; [reflexivity |]. apply repr3_iff. intros i j Hi Hj. cases3 i Hi; cases3 j Hj; reflexivity.
Qed.
Example C07_case_ieee lm : repr3 (mat3_init (ex9 lm) true) (rows9 (ex9 lm)) /\
  forall i j, (i < 3)%N -> (j < 3)%N -> is_finite (rows9 (ex9 lm) i j : f64) = true.
Proof. split; [apply init3_repr |]. intros i j Hi Hj. cases3 i Hi; cases3 j Hj; vm_compute; reflexivity. Qed.

(** ---- C08: Mat4 inverse ---- *)
(** Full statement: if inverse() returns Some R then M*R = R*M = identity; None exactly when |det M| < EPSILON.
    The first half is false: the code returns the transposed inverse (mat.rs writes the adjugate in column order). *)
Theorem C08_refuted (eps : R) (zs : XR -> bool) : 0 < eps <= 1 ->
  ~ (forall (m r p : mat4 (Exact eps zs)) f, repr4 m (fin f : lmat (Exact eps zs)) -> mat4_inverse m = Ok (Some r) ->
       mat4_mul m r = Ok (Some p) -> repr4 p (fin riden : lmat (Exact eps zs))).
Proof. exact (inv4_not_inverse eps zs). Qed.
Print Assumptions C08_refuted.
(** the same on f64: M*R misses the identity by more than 1/2 in some entry, for the shear [1 1; 0 1] *)
Theorem C08_refuted_f64 lm : exists m : mat4 (F64 lm), m4_rm m = true /\
  (let! o := mat4_inverse m in let! r := unwrap o in let! o := mat4_mul m r in let! p := unwrap o in
   let! i := mat4_iden in mat4_is_equal p i (nlit (F64 lm) 1 2)) = Ok (Some false).
Proof. exact (inv4_f64_wrong lm). Qed.
Print Assumptions C08_refuted_f64.
(** what holds: the result is the transpose of the inverse (row-major whatever the layout of M), None exactly when
    |det M| < EPSILON, no panic *)
Theorem C08_partial (eps : R) (zs : XR -> bool) (m : mat4 (Exact eps zs)) (f : rmat) : 0 < eps ->
  repr4 m (fin f : lmat (Exact eps zs)) ->
  (mat4_inverse m = Ok None <-> Rabs (rdet4 f) < eps) /\
  (forall o, mat4_inverse m = Ok o -> o = None \/
    exists r g, o = Some r /\ m4_rm r = true /\ repr4 r (fin g : lmat (Exact eps zs)) /\ rinverse4 f (fun i j => g j i)) /\
  (exists o, mat4_inverse m = Ok o).
Proof. exact (inv4_meaning eps zs m f). Qed.
Print Assumptions C08_partial.
Example C08_case eps zs : 0 < eps <= 1 -> exists m : mat4 (Exact eps zs),
  repr4 m (fin shear : lmat (Exact eps zs)) /\ exists r, mat4_inverse m = Ok (Some r).
Proof. exact (inv4_shear_case eps zs). Qed.

(** ---- C09: Mat3 inverse ---- *)
Theorem C09_refuted (eps : R) (zs : XR -> bool) :
  ~ (forall (m r p : mat3 (Exact eps zs)) f, repr3 m (fin f : lmat (Exact eps zs)) -> mat3_inverse m = Ok (Some r) ->
       mat3_mul m r = Ok (Some p) -> repr3 p (fin riden : lmat (Exact eps zs))).
Proof. exact (inv3_not_inverse eps zs). Qed.
Print Assumptions C09_refuted.
Theorem C09_refuted_f64 lm : exists m : mat3 (F64 lm), m3_rm m = true /\
  (let! o := mat3_inverse m in let! r := unwrap o in let! o := mat3_mul m r in let! p := unwrap o in
   let! i := mat3_iden in mat3_is_equal p i (nlit (F64 lm) 1 2)) = Ok (Some false).
Proof. exact (inv3_f64_wrong lm). Qed.
Print Assumptions C09_refuted_f64.
(** what holds: None exactly for -1e-11 < det M < 1e-10, no panic, layout kept; for det M = 1 the result is the inverse
    with its middle column negated *)
Theorem C09_partial (eps : R) (zs : XR -> bool) (m : mat3 (Exact eps zs)) (f : rmat) : repr3 m (fin f : lmat (Exact eps zs)) ->
  (mat3_inverse m = Ok None <-> - (1 / 100000000000) < rdet3 f < 1 / 10000000000) /\
  (exists o, mat3_inverse m = Ok o) /\
  (forall r, mat3_inverse m = Ok (Some r) -> m3_rm r = m3_rm m).
Proof. exact (inv3_none eps zs m f). Qed.
Print Assumptions C09_partial.
Theorem C09_unimodular_partial (eps : R) (zs : XR -> bool) (m : mat3 (Exact eps zs)) (f : rmat) :
  repr3 m (fin f : lmat (Exact eps zs)) -> rdet3 f = 1 ->
  exists r g, mat3_inverse m = Ok (Some r) /\ repr3 r (fin g : lmat (Exact eps zs)) /\
    lmat_eq 3 (rmul3 f g) rflip /\ rinverse3 f (rmul3 g rflip).
Proof. exact (inv3_unimodular eps zs m f). Qed.
Print Assumptions C09_unimodular_partial.
Example C09_case : rdet3 (fun i j => if (i =? j)%N then 1 else if (j =? i + 1)%N then 5 else 0) = 1.
Proof. unfold rdet3, rdet2, minor, skip. simpl. ring. Qed.

(** ---- C10: element-wise operations ---- *)
(** equal layouts: the operation acts on corresponding entries, for every arithmetic *)
Theorem C10_partial3 {Nm : Num} (a b : mat3 Nm) (f g : lmat Nm) (s : Nm) : m3_rm a = m3_rm b -> repr3 a f -> repr3 b g ->
  (exists c, mat3_plus a b = Some c /\ m3_rm c = m3_rm a /\ repr3 c (fun i j => nadd Nm (f i j) (g i j))) /\
  (exists c, mat3_minus a b = Some c /\ m3_rm c = m3_rm a /\ repr3 c (fun i j => nsub Nm (f i j) (g i j))) /\
  (exists c, mat3_mul_elem a b = Some c /\ m3_rm c = m3_rm a /\ repr3 c (fun i j => nmul Nm (f i j) (g i j))) /\
  (exists c, mat3_div a b = Some c /\ m3_rm c = m3_rm a /\ repr3 c (fun i j => ndiv Nm (f i j) (g i j))) /\
  (exists c, mat3_scale a s = Ok (Some c) /\ m3_rm c = m3_rm a /\ repr3 c (fun i j => nmul Nm (f i j) s)).
Proof. exact (elem3_all a b f g s). Qed.
Print Assumptions C10_partial3.
Theorem C10_partial4 {Nm : Num} (a b : mat4 Nm) (f g : lmat Nm) (s : Nm) : m4_rm a = m4_rm b -> repr4 a f -> repr4 b g ->
  (exists c, mat4_plus a b = Some c /\ m4_rm c = m4_rm a /\ repr4 c (fun i j => nadd Nm (f i j) (g i j))) /\
  (exists c, mat4_minus a b = Some c /\ m4_rm c = m4_rm a /\ repr4 c (fun i j => nsub Nm (f i j) (g i j))) /\
  (exists c, mat4_mul_elem a b = Some c /\ m4_rm c = m4_rm a /\ repr4 c (fun i j => nmul Nm (f i j) (g i j))) /\
  (exists c, mat4_div a b = Some c /\ m4_rm c = m4_rm a /\ repr4 c (fun i j => ndiv Nm (f i j) (g i j))) /\
  (exists c, mat4_scale a s = Ok (Some c) /\ m4_rm c = m4_rm a /\ repr4 c (fun i j => nmul Nm (f i j) s)).
Proof. exact (elem4_all a b f g s). Qed.
Print Assumptions C10_partial4.
(** different layouts: the second operand is silently transposed *)
Theorem C10_mixed3 {Nm : Num} (a b : mat3 Nm) (f g : lmat Nm) : m3_rm a <> m3_rm b -> repr3 a f -> repr3 b g ->
  (exists c, mat3_plus a b = Some c /\ m3_rm c = m3_rm a /\ repr3 c (fun i j => nadd Nm (f i j) (g j i))) /\
  (exists c, mat3_minus a b = Some c /\ m3_rm c = m3_rm a /\ repr3 c (fun i j => nsub Nm (f i j) (g j i))) /\
  (exists c, mat3_mul_elem a b = Some c /\ m3_rm c = m3_rm a /\ repr3 c (fun i j => nmul Nm (f i j) (g j i))) /\
  (exists c, mat3_div a b = Some c /\ m3_rm c = m3_rm a /\ repr3 c (fun i j => ndiv Nm (f i j) (g j i))).
Proof. exact (elem_mixed3 a b f g). Qed.
Print Assumptions C10_mixed3.
Theorem C10_mixed4 {Nm : Num} (a b : mat4 Nm) (f g : lmat Nm) : m4_rm a <> m4_rm b -> repr4 a f -> repr4 b g ->
  (exists c, mat4_plus a b = Some c /\ m4_rm c = m4_rm a /\ repr4 c (fun i j => nadd Nm (f i j) (g j i))) /\
  (exists c, mat4_minus a b = Some c /\ m4_rm c = m4_rm a /\ repr4 c (fun i j => nsub Nm (f i j) (g j i))) /\
  (exists c, mat4_mul_elem a b = Some c /\ m4_rm c = m4_rm a /\ repr4 c (fun i j => nmul Nm (f i j) (g j i))) /\
  (exists c, mat4_div a b = Some c /\ m4_rm c = m4_rm a /\ repr4 c (fun i j => ndiv Nm (f i j) (g j i))).
Proof. exact (elem_mixed4 a b f g). Qed.
Print Assumptions C10_mixed4.
(** hence the property is false: on f64, A + B of different layouts is not the entry-wise sum *)
Theorem C10_refuted lm : exists (a b c : mat3 (F64 lm)), mat3_plus a b = Some c /\
  (let! x := mat3_index true a 0 1 in let! y := mat3_index true b 0 1 in let! z := mat3_index true c 0 1 in
   Ok (neqb z (nadd (F64 lm) x y))) = Ok false.
Proof. exact (plus_mixed_f64 lm). Qed.
Print Assumptions C10_refuted.
Example C10_case lm : m3_rm (mat3_init (ex9 lm) false) = m3_rm (mat3_init (ex9 lm) false).
Proof. reflexivity. Qed.

(** ---- C11: tolerance comparison ---- *)
Theorem C11_exact (eps : R) (zs : XR -> bool) (a b : mat3 (Exact eps zs)) (c d : mat4 (Exact eps zs)) (f g h k : rmat) (e : R) :
  repr3 a (fin f : lmat (Exact eps zs)) -> repr3 b (fin g : lmat (Exact eps zs)) ->
  repr4 c (fin h : lmat (Exact eps zs)) -> repr4 d (fin k : lmat (Exact eps zs)) ->
  (exists r, mat3_is_equal a b (Fin e : Exact eps zs) = Ok (Some r) /\
     (r = true <-> (m3_rm a = m3_rm b /\ forall i j, (i < 3)%N -> (j < 3)%N -> Rabs (f i j - g i j) <= e))) /\
  (exists r, mat4_is_equal c d (Fin e : Exact eps zs) = Ok (Some r) /\
     (r = true <-> (m4_rm c = m4_rm d /\ forall i j, (i < 4)%N -> (j < 4)%N -> Rabs (h i j - k i j) <= e))).
Proof. exact (fun A B C D => conj (is_equal3_exact eps zs a b f g e A B) (is_equal4_exact eps zs c d h k e C D)). Qed.
Print Assumptions C11_exact.
(** the six vector types ([k] ranges over them; [isv v l]: the components of [v] are the reals [l]) *)
Theorem C11_exact_vectors (eps : R) (zs : XR -> bool) k (u v : vcar (Exact eps zs) k) l r e : isv eps zs u l -> isv eps zs v r ->
  exists b, vec_is_equal u v (Fin e : Exact eps zs) = Some b /\ (b = true <-> Forall2 (fun x y => Rabs (x - y) <= e) l r).
Proof. exact (vec_is_equal_exact eps zs k u v l r e). Qed.
Print Assumptions C11_exact_vectors.
Theorem C11_nan prec emax {Hp : Prec_gt_0 prec} {Hm : Prec_lt_emax prec emax} lm
  (a b : mat3 (@Ieee prec emax Hp Hm lm)) (c d : mat4 (@Ieee prec emax Hp Hm lm)) f g h k e :
  repr3 a f -> repr3 b g -> repr4 c h -> repr4 d k ->
  (mat3_is_equal a b e = Ok (Some true) ->
     e <> B754_nan /\ forall i j, (i < 3)%N -> (j < 3)%N -> f i j <> B754_nan /\ g i j <> B754_nan) /\
  (mat4_is_equal c d e = Ok (Some true) ->
     e <> B754_nan /\ forall i j, (i < 4)%N -> (j < 4)%N -> h i j <> B754_nan /\ k i j <> B754_nan).
Proof. exact (fun A B C D => conj (is_equal3_nan prec emax lm a b f g e A B) (is_equal4_nan prec emax lm c d h k e C D)). Qed.
Print Assumptions C11_nan.
Theorem C11_nan_vectors prec emax {Hp : Prec_gt_0 prec} {Hm : Prec_lt_emax prec emax} lm k
  (u v : vcar (@Ieee prec emax Hp Hm lm) k) e : vec_is_equal u v e = Some true ->
  e <> B754_nan /\ Forall2 (fun x y : binary_float prec emax => x <> B754_nan /\ y <> B754_nan) (vcomps u) (vcomps v).
Proof. exact (vec_is_equal_nan prec emax lm k u v e). Qed.
Print Assumptions C11_nan_vectors.
(** finite operands equal themselves for every tolerance >= 0, the infinite one included *)
Theorem C11_self prec emax {Hp : Prec_gt_0 prec} {Hm : Prec_lt_emax prec emax} lm
  (a : mat3 (@Ieee prec emax Hp Hm lm)) (b : mat4 (@Ieee prec emax Hp Hm lm)) f g e :
  repr3 a f -> repr4 b g -> nle (n0 : @Ieee prec emax Hp Hm lm) e = true ->
  (forall i j, (i < 3)%N -> (j < 3)%N -> is_finite (f i j : binary_float prec emax) = true) ->
  (forall i j, (i < 4)%N -> (j < 4)%N -> is_finite (g i j : binary_float prec emax) = true) ->
  mat3_is_equal a a e = Ok (Some true) /\ mat4_is_equal b b e = Ok (Some true).
Proof. exact (fun A B E F G => conj (is_equal3_refl prec emax lm a f e A E F) (is_equal4_refl prec emax lm b g e B E G)). Qed.
Print Assumptions C11_self.
Theorem C11_self_vectors prec emax {Hp : Prec_gt_0 prec} {Hm : Prec_lt_emax prec emax} lm k
  (u : vcar (@Ieee prec emax Hp Hm lm) k) e : nle (n0 : @Ieee prec emax Hp Hm lm) e = true ->
  Forall (fun x : binary_float prec emax => is_finite x = true) (vcomps u) -> vec_is_equal u u e = Some true.
Proof. exact (vec_is_equal_refl prec emax lm k u e). Qed.
Print Assumptions C11_self_vectors.
(** infinite entries need a finite tolerance: with an infinite one the comparison computes inf - inf *)
Example C11_infinite_entry lm :
  let v := M2x1 (A2 (ninf (F64 lm)) (z64 lm 1)) in
  mat2x1_is_equal v v (ninf (F64 lm)) = Some false /\ mat2x1_is_equal v v (z64 lm 0) = Some true.
Proof. split; vm_compute; reflexivity. Qed.
Example C11_case lm : nle (n0 : F64 lm) (ninf (F64 lm)) = true /\ nle (n0 : F64 lm) (z64 lm 3) = true.
Proof. split; vm_compute; reflexivity. Qed.

(** ---- C12: symmetry of the comparison ---- *)
(** exact arithmetic, every finite tolerance, every operand (also infinite and NaN entries) *)
Theorem C12_partial (eps : R) (zs : XR -> bool) (a b : mat3 (Exact eps zs)) (c d : mat4 (Exact eps zs)) (e : R) :
  mat3_is_equal a b (Fin e : Exact eps zs) = mat3_is_equal b a (Fin e : Exact eps zs) /\
  mat4_is_equal c d (Fin e : Exact eps zs) = mat4_is_equal d c (Fin e : Exact eps zs) /\
  forall k (u v : vcar (Exact eps zs) k), vec_is_equal u v (Fin e : Exact eps zs) = vec_is_equal v u (Fin e : Exact eps zs).
Proof. exact (conj (is_equal3_sym eps zs a b e) (conj (is_equal4_sym eps zs c d e) (fun k u v => vec_is_equal_sym eps zs k u v e))). Qed.
Print Assumptions C12_partial.
(** IEEE arithmetic: rounding of b + e and b - e breaks the symmetry, on finite operands *)
Theorem C12_refuted lm : exists (u v : mat3x1 (F64 lm)) (e : F64 lm),
  mat3x1_is_equal u v e = Some false /\ mat3x1_is_equal v u e = Some true.
Proof. exact (is_equal_asym lm). Qed.
Print Assumptions C12_refuted.

(** ---- C13: length and normalisation, the six vector types ---- *)
Theorem C13_magnitude (eps : R) (zs : XR -> bool) k (u : vcar (Exact eps zs) k) l (s : R) : isv eps zs u l ->
  exists m, vec_magnitude u = Some (Fin m : Exact eps zs) /\ 0 <= m /\ m * m = ldot l l /\
    (m = 0 <-> Forall (fun x => x = 0) l) /\
    exists w, vec_scale u (Fin s : Exact eps zs) = Some w /\ vec_magnitude w = Some (Fin (Rabs s * m) : Exact eps zs).
Proof. exact (vec_magnitude_laws eps zs k u l s). Qed.
Print Assumptions C13_magnitude.
Theorem C13_normalize (eps : R) (zs : XR -> bool) k (u : vcar (Exact eps zs) k) l : isv eps zs u l ->
  ~ Forall (fun x => x = 0) l ->
  exists w c, vec_normalize u = Ok (Some w) /\ 0 < c /\ isv eps zs w (map (Rmult c) l) /\
    vec_magnitude w = Some (Fin 1 : Exact eps zs).
Proof. exact (vec_normalize_laws eps zs k u l). Qed.
Print Assumptions C13_normalize.
(** the zero vector: Some of NaN components, for every IEEE format and sign of the zeros *)
Theorem C13_normalize_zero prec emax {Hp : Prec_gt_0 prec} {Hm : Prec_lt_emax prec emax} lm k
  (u : vcar (@Ieee prec emax Hp Hm lm) k) :
  Forall (fun x : binary_float prec emax => exists s, x = B754_zero s) (vcomps u) ->
  exists w, vec_normalize u = Ok (Some w) /\ Forall (fun x : binary_float prec emax => x = B754_nan) (vcomps w).
Proof. exact (vec_normalize_zero prec emax lm k u). Qed.
Print Assumptions C13_normalize_zero.
Example C13_case eps zs : isv eps zs (k := K4x1) (M4x1 (A4 (Fin 1) (Fin 2) (Fin 2) (Fin 4))) [1; 2; 2; 4] /\
  ~ Forall (fun x => x = 0) [1; 2; 2; 4].
Proof. split; [reflexivity |]. intro H. inversion H. lra. Qed.

(** ---- C14: cross product ---- *)
(** [ev v] is the library's 3x1 vector with the real components of [v]; the 1x3 version has the same components *)
Theorem C14_cross (eps : R) (zs : XR -> bool) (u v : V3) : exists w,
  mat3x1_cross (ev eps zs u) (ev eps zs v) = Some (ev eps zs w) /\
  mat1x3_cross (M1x3 (v3x1 (ev eps zs u))) (M1x3 (v3x1 (ev eps zs v))) = Some (M1x3 (v3x1 (ev eps zs w))) /\
  w = V (vy u * vz v - vz u * vy v) (vz u * vx v - vx u * vz v) (vx u * vy v - vy u * vx v) /\
  vdot u w = 0 /\ vdot v w = 0 /\
  mat3x1_cross (ev eps zs v) (ev eps zs u) = Some (ev eps zs (vscale (-1) w)) /\
  vdot w w = vdot u u * vdot v v - vdot u v * vdot u v.
Proof. exact (cross_laws eps zs u v). Qed.
Print Assumptions C14_cross.
Theorem C14_bilinear (eps : R) (zs : XR -> bool) (a b : R) (u v w : V3) : exists p q r s,
  mat3x1_cross (ev eps zs u) (ev eps zs w) = Some (ev eps zs p) /\
  mat3x1_cross (ev eps zs v) (ev eps zs w) = Some (ev eps zs q) /\
  mat3x1_cross (ev eps zs (vadd (vscale a u) (vscale b v))) (ev eps zs w) = Some (ev eps zs (vadd (vscale a p) (vscale b q))) /\
  mat3x1_cross (ev eps zs w) (ev eps zs u) = Some (ev eps zs r) /\
  mat3x1_cross (ev eps zs w) (ev eps zs v) = Some (ev eps zs s) /\
  mat3x1_cross (ev eps zs w) (ev eps zs (vadd (vscale a u) (vscale b v))) = Some (ev eps zs (vadd (vscale a r) (vscale b s))).
Proof. exact (cross_bilinear eps zs a b u v w). Qed.
Print Assumptions C14_bilinear.
Theorem C14_none {Nm : Num} : (forall k (u v : vcar Nm k), vlen k <> 3%nat -> vec_cross u v = None) /\
  (forall a b : mat3 Nm, mat3_cross a b = None) /\ (forall a b : mat4 Nm, mat4_cross a b = None).
Proof. exact (conj (@vec_cross_none Nm) (conj (fun a b => eq_refl) (fun a b => eq_refl))). Qed.
Print Assumptions C14_none.
Example C14_case : vcross (V 1 2 3) (V 4 5 6) = V (-3) 6 (-3) /\ vlen K2x1 <> 3%nat.
Proof. split; [unfold vcross; simpl; f_equal; ring | discriminate]. Qed.

(** ---- C15: dot product and triangle inequalities ---- *)
Theorem C15_inequalities (eps : R) (zs : XR -> bool) k (u v : vcar (Exact eps zs) k) l r : isv eps zs u l -> isv eps zs v r ->
  exists d m n w s, vec_dot u v = Some (Fin d : Exact eps zs) /\ vec_magnitude u = Some (Fin m : Exact eps zs) /\
    vec_magnitude v = Some (Fin n : Exact eps zs) /\ vec_plus u v = Some w /\ vec_magnitude w = Some (Fin s : Exact eps zs) /\
    Rabs d <= m * n /\ s <= m + n.
Proof. exact (vec_inequalities eps zs k u v l r). Qed.
Print Assumptions C15_inequalities.
Theorem C15_commutative prec emax {Hp : Prec_gt_0 prec} {Hm : Prec_lt_emax prec emax} lm k
  (u v : vcar (@Ieee prec emax Hp Hm lm) k) :
  vec_dot u v = vec_dot v u /\ vec_plus u v = vec_plus v u /\ vec_mul_elem u v = vec_mul_elem v u.
Proof. exact (vec_commutative prec emax lm k u v). Qed.
Print Assumptions C15_commutative.
Example C15_case eps zs : isv eps zs (k := K1x2) (M1x2 (A2 (Fin 3) (Fin 4))) [3; 4].
Proof. reflexivity. Qed.

(** ---- C16: trace, identity, sub-matrix ---- *)
Theorem C16_trace {Nm : Num} (a : mat3 Nm) (b : mat4 Nm) (f g : lmat Nm) : repr3 a f -> repr4 b g ->
  mat3_trace a = nadd Nm (nadd Nm (f 0%N 0%N) (f 1%N 1%N)) (f 2%N 2%N) /\
  mat4_trace b = nadd Nm (nadd Nm (nadd Nm (g 0%N 0%N) (g 1%N 1%N)) (g 2%N 2%N)) (g 3%N 3%N).
Proof. exact (fun A B => conj (trace3_spec a f A) (trace4_spec b g B)). Qed.
Print Assumptions C16_trace.
Theorem C16_iden {Nm : Num} :
  (exists m : mat3 Nm, mat3_iden = Ok m /\ m3_rm m = true /\ repr3 m (fun i j => if (i =? j)%N then n1 else n0)) /\
  (exists m : mat4 Nm, mat4_iden = Ok m /\ m4_rm m = true /\ repr4 m (fun i j => if (i =? j)%N then n1 else n0)).
Proof. exact (conj (@iden3_spec Nm) (@iden4_spec Nm)). Qed.
Print Assumptions C16_iden.
Theorem C16_submat {Nm : Num} (a : mat4 Nm) (f : lmat Nm) : repr4 a f ->
  m3_rm (mat4_submat_mat3 a) = m4_rm a /\ repr3 (mat4_submat_mat3 a) f.
Proof. exact (submat_spec a f). Qed.
Print Assumptions C16_submat.
Example C16_case lm : repr4 (mat4_init (ex16 lm) false) (rows16 (ex16 lm)) /\ rows16 (ex16 lm) 2%N 1%N = z64 lm 10.
Proof. split; [apply init4_repr | reflexivity]. Qed.
