(** PMat2.v — index range, element-wise operations, trace/identity/sub-matrix, for every scalar arithmetic. *)
From Coq Require Import List ZArith NArith Bool Lia ZifyBool ZifyN ZifyNat.
Import ListNotations.
From Verif Require Import Base Num Vec Mat SpecMat PMat.

(** the linear offset [index] computes *)
Definition offset (dim : N) (row_major : bool) (i j : N) : N := if row_major then i * dim + j else i + j * dim.

Lemma lin_index_checked dim rm i j :
  (offset dim rm i j < 2 ^ 64 -> lin_index true dim rm i j = Ok (offset dim rm i j))%N /\
  (2 ^ 64 <= offset dim rm i j -> lin_index true dim rm i j = Panic POverflow)%N.
Proof.
  unfold lin_index, offset, usize_mul, usize_add, usize_wrap, bind. destruct rm.
  - destruct (N.ltb_spec (i * dim) (2 ^ 64)); [destruct (N.ltb_spec (i * dim + j) (2 ^ 64)) |];
      split; intro; try reflexivity; lia.
  - destruct (N.ltb_spec (j * dim) (2 ^ 64)); [destruct (N.ltb_spec (i + j * dim) (2 ^ 64)) |];
      split; intro; try reflexivity; lia.
Qed.

Lemma wrap_release x : usize_wrap false x = Ok (x mod 2 ^ 64)%N.
Proof.
  unfold usize_wrap. destruct (N.ltb_spec x (2 ^ 64)); [|reflexivity].
  rewrite N.mod_small by assumption. reflexivity.
Qed.

Lemma lin_index_release dim rm i j :
  lin_index false dim rm i j = Ok (offset dim rm i j mod 2 ^ 64)%N.
Proof.
  unfold lin_index, offset, usize_mul, usize_add, bind. destruct rm; rewrite !wrap_release.
  - rewrite N.add_mod_idemp_l by discriminate. reflexivity.
  - rewrite N.add_mod_idemp_r by discriminate. reflexivity.
Qed.

(** the offset that is finally used, if any *)
Definition used_offset (chk : bool) (dim : N) (rm : bool) (i j : N) : N :=
  if chk then offset dim rm i j else (offset dim rm i j mod 2 ^ 64)%N.

Section PMat2.
  Context {Nm : Num}.

  Lemma nth_rows9 (a : arr9 Nm) k : (k < 9)%N -> idx (list9 a) (N.to_nat k) = Ok (rows9 a (k / 3) (k mod 3))%N.
  Proof.
    intro H. assert (Hc : (k = 0 \/ k = 1 \/ k = 2 \/ k = 3 \/ k = 4 \/ k = 5 \/ k = 6 \/ k = 7 \/ k = 8)%N) by lia.
    destruct a. repeat (destruct Hc as [-> | Hc]; [reflexivity |]). subst k. reflexivity.
  Qed.
  Lemma nth_rows16 (a : arr16 Nm) k : (k < 16)%N -> idx (list16 a) (N.to_nat k) = Ok (rows16 a (k / 4) (k mod 4))%N.
  Proof.
    intro H. assert (Hc : (k = 0 \/ k = 1 \/ k = 2 \/ k = 3 \/ k = 4 \/ k = 5 \/ k = 6 \/ k = 7 \/ k = 8
                         \/ k = 9 \/ k = 10 \/ k = 11 \/ k = 12 \/ k = 13 \/ k = 14 \/ k = 15)%N) by lia.
    destruct a. repeat (destruct Hc as [-> | Hc]; [reflexivity |]). subst k. reflexivity.
  Qed.

  (** C02, what [index] really does for any u64 pair *)
  Lemma index3_exact chk (m : mat3 Nm) i j :
    ((used_offset chk 3 (m3_rm m) i j < 9)%N ->
       mat3_index chk m i j =
         Ok (rows9 (m3_val m) (used_offset chk 3 (m3_rm m) i j / 3) (used_offset chk 3 (m3_rm m) i j mod 3))%N) /\
    ((9 <= used_offset chk 3 (m3_rm m) i j)%N -> exists k, mat3_index chk m i j = Panic k).
  Proof.
    unfold mat3_index, used_offset. destruct m as [a rm]; cbn [m3_rm m3_val].
    assert (Hlen : N.of_nat (length (list9 a)) = 9%N) by (destruct a; reflexivity).
    destruct chk.
    - destruct (lin_index_checked 3 rm i j) as [H1 H2]. split; intro H.
      + rewrite H1 by (change (2 ^ 64)%N with 18446744073709551616%N; lia). cbn [bind].
        unfold idxN. rewrite Hlen. destruct (N.ltb_spec (offset 3 rm i j) 9); [|lia]. apply nth_rows9; assumption.
      + destruct (N.lt_ge_cases (offset 3 rm i j) (2 ^ 64)) as [Hl | Hl].
        * rewrite H1 by assumption. cbn [bind]. unfold idxN. rewrite Hlen.
          destruct (N.ltb_spec (offset 3 rm i j) 9); [lia|]. eexists; reflexivity.
        * rewrite H2 by assumption. eexists; reflexivity.
    - rewrite lin_index_release. cbn [bind]. unfold idxN. rewrite Hlen. split; intro H.
      + destruct (N.ltb_spec (offset 3 rm i j mod 2 ^ 64) 9); [|lia]. apply nth_rows9; assumption.
      + destruct (N.ltb_spec (offset 3 rm i j mod 2 ^ 64) 9); [lia|]. eexists; reflexivity.
  Qed.
  Lemma index4_exact chk (m : mat4 Nm) i j :
    ((used_offset chk 4 (m4_rm m) i j < 16)%N ->
       mat4_index chk m i j =
         Ok (rows16 (m4_val m) (used_offset chk 4 (m4_rm m) i j / 4) (used_offset chk 4 (m4_rm m) i j mod 4))%N) /\
    ((16 <= used_offset chk 4 (m4_rm m) i j)%N -> exists k, mat4_index chk m i j = Panic k).
  Proof.
    unfold mat4_index, used_offset. destruct m as [a rm]; cbn [m4_rm m4_val].
    assert (Hlen : N.of_nat (length (list16 a)) = 16%N) by (destruct a; reflexivity).
    destruct chk.
    - destruct (lin_index_checked 4 rm i j) as [H1 H2]. split; intro H.
      + rewrite H1 by (change (2 ^ 64)%N with 18446744073709551616%N; lia). cbn [bind].
        unfold idxN. rewrite Hlen. destruct (N.ltb_spec (offset 4 rm i j) 16); [|lia]. apply nth_rows16; assumption.
      + destruct (N.lt_ge_cases (offset 4 rm i j) (2 ^ 64)) as [Hl | Hl].
        * rewrite H1 by assumption. cbn [bind]. unfold idxN. rewrite Hlen.
          destruct (N.ltb_spec (offset 4 rm i j) 16); [lia|]. eexists; reflexivity.
        * rewrite H2 by assumption. eexists; reflexivity.
    - rewrite lin_index_release. cbn [bind]. unfold idxN. rewrite Hlen. split; intro H.
      + destruct (N.ltb_spec (offset 4 rm i j mod 2 ^ 64) 16); [|lia]. apply nth_rows16; assumption.
      + destruct (N.ltb_spec (offset 4 rm i j mod 2 ^ 64) 16); [lia|]. eexists; reflexivity.
  Qed.

  (** with overflow checks, the slow index (row of a row-major, column of a column-major matrix) is range checked *)
  Lemma index3_slow_checked (m : mat3 Nm) i j :
    (3 <= (if m3_rm m then i else j))%N -> exists k, mat3_index true m i j = Panic k.
  Proof.
    intro H. apply (index3_exact true m i j). unfold used_offset, offset. destruct (m3_rm m); lia.
  Qed.
  Lemma index4_slow_checked (m : mat4 Nm) i j :
    (4 <= (if m4_rm m then i else j))%N -> exists k, mat4_index true m i j = Panic k.
  Proof.
    intro H. apply (index4_exact true m i j). unfold used_offset, offset. destruct (m4_rm m); lia.
  Qed.
  (** the fast index is not: it silently addresses the next row / column *)
  Lemma index3_alias chk (m : mat3 Nm) :
    mat3_index chk m (if m3_rm m then 0 else 3)%N (if m3_rm m then 3 else 0)%N =
    mat3_index chk m (if m3_rm m then 1 else 0)%N (if m3_rm m then 0 else 1)%N /\
    exists x, mat3_index chk m (if m3_rm m then 1 else 0)%N (if m3_rm m then 0 else 1)%N = Ok x.
  Proof. destruct m as [[] []], chk; (split; [reflexivity | eexists; reflexivity]). Qed.
  Lemma index4_alias chk (m : mat4 Nm) :
    mat4_index chk m (if m4_rm m then 0 else 4)%N (if m4_rm m then 4 else 0)%N =
    mat4_index chk m (if m4_rm m then 1 else 0)%N (if m4_rm m then 0 else 1)%N /\
    exists x, mat4_index chk m (if m4_rm m then 1 else 0)%N (if m4_rm m then 0 else 1)%N = Ok x.
  Proof. destruct m as [[] []], chk; (split; [reflexivity | eexists; reflexivity]). Qed.
  (** without overflow checks even a huge slow index is accepted, by wrap-around *)
  Lemma index3_wrap (m : mat3 Nm) : m3_rm m = true ->
    mat3_index false m 6148914691236517206 0 = mat3_index false m 0 2 /\
    exists x, mat3_index false m 0 2 = Ok x.
  Proof. destruct m as [[] []]; intro H; [|discriminate]; split; [reflexivity | eexists; reflexivity]. Qed.
  Lemma index4_wrap (m : mat4 Nm) : m4_rm m = true ->
    mat4_index false m 4611686018427387904 1 = mat4_index false m 0 1 /\
    exists x, mat4_index false m 0 1 = Ok x.
  Proof. destruct m as [[] []]; intro H; [|discriminate]; split; [reflexivity | eexists; reflexivity]. Qed.

  (** C10 *)
  Definition elem_ok3 (meth : mat3 Nm -> mat3 Nm -> option (mat3 Nm)) (op : Nm -> Nm -> Nm) : Prop :=
    forall a b f g, repr3 a f -> repr3 b g ->
      exists c, meth a b = Some c /\ m3_rm c = m3_rm a /\
        repr3 c (lmap2 op f (if Bool.eqb (m3_rm a) (m3_rm b) then g else ltrans g)).
  Definition elem_ok4 (meth : mat4 Nm -> mat4 Nm -> option (mat4 Nm)) (op : Nm -> Nm -> Nm) : Prop :=
    forall a b f g, repr4 a f -> repr4 b g ->
      exists c, meth a b = Some c /\ m4_rm c = m4_rm a /\
        repr4 c (lmap2 op f (if Bool.eqb (m4_rm a) (m4_rm b) then g else ltrans g)).

  Ltac elem3 :=
    intros a b f g Ha Hb; apply repr3_iff in Ha; apply repr3_iff in Hb;
    destruct a as [[] ra], b as [[] rb]; destruct ra, rb;
    (eexists; split; [reflexivity | split; [reflexivity |]]);
    apply repr3_iff; intros p q Hp Hq; unfold lmap2; cbn [Bool.eqb m3_rm]; unfold ltrans;
    rewrite <- Ha, <- Hb by assumption; cases3 p Hp; cases3 q Hq; reflexivity.
  Ltac elem4 :=
    intros a b f g Ha Hb; apply repr4_iff in Ha; apply repr4_iff in Hb;
    destruct a as [[] ra], b as [[] rb]; destruct ra, rb;
    (eexists; split; [reflexivity | split; [reflexivity |]]);
    apply repr4_iff; intros p q Hp Hq; unfold lmap2; cbn [Bool.eqb m4_rm]; unfold ltrans;
    rewrite <- Ha, <- Hb by assumption; cases4 p Hp; cases4 q Hq; reflexivity.

  Lemma plus3_elem : elem_ok3 mat3_plus (nadd Nm). Proof. elem3. Qed.
  Lemma minus3_elem : elem_ok3 mat3_minus (nsub Nm). Proof. elem3. Qed.
  Lemma mul_elem3_elem : elem_ok3 mat3_mul_elem (nmul Nm). Proof. elem3. Qed.
  Lemma div3_elem : elem_ok3 mat3_div (ndiv Nm). Proof. elem3. Qed.
  Lemma plus4_elem : elem_ok4 mat4_plus (nadd Nm). Proof. elem4. Qed.
  Lemma minus4_elem : elem_ok4 mat4_minus (nsub Nm). Proof. elem4. Qed.
  Lemma mul_elem4_elem : elem_ok4 mat4_mul_elem (nmul Nm). Proof. elem4. Qed.
  Lemma div4_elem : elem_ok4 mat4_div (ndiv Nm). Proof. elem4. Qed.

  Lemma scale3_elem (a : mat3 Nm) s f : repr3 a f ->
    exists c, mat3_scale a s = Ok (Some c) /\ m3_rm c = m3_rm a /\ repr3 c (lmap (fun x => nmul Nm x s) f).
  Proof.
    intros Ha. apply repr3_iff in Ha. destruct a as [[] ra].
    eexists; split; [reflexivity | split; [reflexivity |]].
    apply repr3_iff; intros p q Hp Hq; unfold lmap; rewrite <- Ha by assumption;
      destruct ra; cases3 p Hp; cases3 q Hq; reflexivity.
  Qed.
  Lemma scale4_elem (a : mat4 Nm) s f : repr4 a f ->
    exists c, mat4_scale a s = Ok (Some c) /\ m4_rm c = m4_rm a /\ repr4 c (lmap (fun x => nmul Nm x s) f).
  Proof.
    intros Ha. apply repr4_iff in Ha. destruct a as [[] ra].
    eexists; split; [reflexivity | split; [reflexivity |]].
    apply repr4_iff; intros p q Hp Hq; unfold lmap; rewrite <- Ha by assumption;
      destruct ra; cases4 p Hp; cases4 q Hq; reflexivity.
  Qed.
  (** normalize divides every entry by the last one *)
  Lemma normalize3_elem (a : mat3 Nm) f : repr3 a f ->
    exists c, mat3_normalize a = Ok (Some c) /\ m3_rm c = m3_rm a /\ repr3 c (lmap (fun x => ndiv Nm x (f 2 2)%N) f).
  Proof.
    intros Ha. apply repr3_iff in Ha. destruct a as [[] ra].
    eexists; split; [reflexivity | split; [reflexivity |]].
    apply repr3_iff; intros p q Hp Hq; unfold lmap; rewrite <- !Ha by (assumption || reflexivity);
      destruct ra; cases3 p Hp; cases3 q Hq; reflexivity.
  Qed.
  Lemma normalize4_elem (a : mat4 Nm) f : repr4 a f ->
    exists c, mat4_normalize a = Ok (Some c) /\ m4_rm c = m4_rm a /\ repr4 c (lmap (fun x => ndiv Nm x (f 3 3)%N) f).
  Proof.
    intros Ha. apply repr4_iff in Ha. destruct a as [[] ra].
    eexists; split; [reflexivity | split; [reflexivity |]].
    apply repr4_iff; intros p q Hp Hq; unfold lmap; rewrite <- !Ha by (assumption || reflexivity);
      destruct ra; cases4 p Hp; cases4 q Hq; reflexivity.
  Qed.

  (** C16 *)
  Lemma trace3_spec (a : mat3 Nm) f : repr3 a f -> mat3_trace a = sum3 (fun i => f i i).
  Proof.
    intros Ha. apply repr3_iff in Ha. unfold sum3. rewrite <- !Ha by reflexivity.
    destruct a as [[] []]; reflexivity.
  Qed.
  Lemma trace4_spec (a : mat4 Nm) f : repr4 a f -> mat4_trace a = sum4 (fun i => f i i).
  Proof.
    intros Ha. apply repr4_iff in Ha. unfold sum4. rewrite <- !Ha by reflexivity.
    destruct a as [[] []]; reflexivity.
  Qed.
  Lemma iden3_spec : exists m : mat3 Nm, mat3_iden = Ok m /\ m3_rm m = true /\ repr3 m liden.
  Proof.
    eexists; split; [reflexivity | split; [reflexivity |]].
    apply repr3_iff; intros p q Hp Hq; cases3 p Hp; cases3 q Hq; reflexivity.
  Qed.
  Lemma iden4_spec : exists m : mat4 Nm, mat4_iden = Ok m /\ m4_rm m = true /\ repr4 m liden.
  Proof.
    eexists; split; [reflexivity | split; [reflexivity |]].
    apply repr4_iff; intros p q Hp Hq; cases4 p Hp; cases4 q Hq; reflexivity.
  Qed.
  Lemma submat_spec (a : mat4 Nm) f : repr4 a f ->
    m3_rm (mat4_submat_mat3 a) = m4_rm a /\ repr3 (mat4_submat_mat3 a) f.
  Proof.
    intros Ha. apply repr4_iff in Ha. split; [destruct a as [[] []]; reflexivity |].
    apply repr3_iff; intros p q Hp Hq. rewrite <- Ha by lia.
    destruct a as [[] []]; cases3 p Hp; cases3 q Hq; reflexivity.
  Qed.
End PMat2.
