(** PRing2.v — from the first iterations into the ring (C109). *)
From Coq Require Import Reals List ZArith NArith Bool Lra Lia Psatz.
From Flocq Require Import Core BinarySingleNaN.
Import ListNotations.
From Verif Require Import Base Num Vec Mat Bound Shape Intersect Gjk Float FloatFacts FloatRound Order SpecMat SpecGeom SpecBound SpecBuild SpecRound
  PMat PBound PShape PInter PBuild PRound PIeee1 PIeee2 PIeee5 PPrismF PMirror1 PMirror3 SpecRing PRing0 PRing1.
Local Open Scope R_scope.

Section Run.
  Context {Nm : Num}.
  Fixpoint run (n : nat) (a b : shape Nm) (l : list (mat3x1 Nm)) (d : mat3x1 Nm) : option (list (mat3x1 Nm) * mat3x1 Nm) :=
    match n with O => Some (l, d) | S n => match gjk_iter a b l d with Ok (inr (l', d')) => run n a b l' d' | _ => None end end.
  Definition go (n : nat) (a b : shape Nm) := match gjk_start a b with Ok (l, d) => run n a b l d | _ => None end.
  Lemma run_never (a b : shape Nm) l' d' : (forall fuel, gjk_loop fuel a b l' d' = OutOfFuel) ->
    forall n l d, run n a b l d = Some (l', d') -> forall fuel, gjk_loop fuel a b l d = OutOfFuel.
  Proof.
    intro H. induction n as [| n IH]; intros l d R fuel; cbn [run] in R; [injection R as -> ->; apply H |].
    destruct fuel as [| fuel]; [reflexivity |]. cbn [gjk_loop]. destruct (gjk_iter a b l d) as [[| [l1 d1]] |]; try discriminate R. apply (IH _ _ R).
  Qed.
  Lemma go_never (a b : shape Nm) n l' d' : go n a b = Some (l', d') -> (forall fuel, gjk_loop fuel a b l' d' = OutOfFuel) -> forall fuel, query_intersect fuel a b = OutOfFuel.
  Proof. unfold go, query_intersect. intros G H fuel. destruct (gjk_start a b) as [[l d] |]; [| discriminate G]. apply (run_never a b l' d' H n l d G). Qed.
End Run.

Section Ring2.
  Context (prec emax : Z) {Hp : Prec_gt_0 prec} {Hm : Prec_lt_emax prec emax} (lm : libm (binary_float prec emax)).
  Notation bf := (binary_float prec emax).
  Notation F := (@Ieee prec emax Hp Hm lm).
  Notation vec := (mat3x1 F).
  Lemma at3_val (v : vec) : val3 prec emax lm v = at3 (v : mat3x1 bf). Proof. destruct v as [[]]. reflexivity. Qed.
  Lemma finite3_fin (v : vec) : fin3 prec emax lm v <-> finite3 (v : mat3x1 bf). Proof. destruct v as [[]]. reflexivity. Qed.
  Lemma ring_never (c c' : vec) (r r' e e' : bf) (s q d : vec) (x y : shape F) : (24 <= prec)%Z ->
    finite3 (c : mat3x1 bf) -> finite3 (c' : mat3x1 bf) -> finite3 (s : mat3x1 bf) -> finite3 (q : mat3x1 bf) -> finite3 (d : mat3x1 bf) ->
    is_finite r = true -> B2R r = / 2 -> is_finite r' = true -> B2R r' = / 2 ->
    side_by_side (at3 c) (at3 c') -> past_origin (uro prec) (at3 s) -> in_ring (at3 q) (at3 d) ->
    mk_sphere (Nm := F) c r e x -> mk_sphere (Nm := F) c' r' e' y ->
    forall fuel, gjk_loop fuel x y [s; q] d = OutOfFuel.
  Proof.
    intros P Fc Fc' Fs Fq Fd Fr Vr Fr' Vr' SB PO IR X Y fuel. apply sphere_any in X, Y. subst x y.
    rewrite <- finite3_fin in Fc, Fc', Fs, Fq, Fd. rewrite <- !at3_val in SB, IR. rewrite <- at3_val in PO.
    apply (never prec emax lm P).
    - destruct SB as (A & B & C). repeat split; try apply Fc; try apply Fc'; try apply A; try apply B; apply C.
    - split; assumption.
    - split; assumption.
    - destruct PO as (A & B & C). repeat split; try apply Fs; assumption || apply A.
    - split; [exact Fq |]. split; [exact Fd | exact IR].
  Qed.
  Definition sf3 (v : mat3x1 bf) := match v with M3x1 (A3 x y z) => (B2SF x, B2SF y, B2SF z) end.
  Definition view (o : option (list (mat3x1 bf) * mat3x1 bf)) := match o with Some ([s; q], d) => Some (sf3 s, sf3 q, sf3 d) | _ => None end.
  Definition sfr (t : SpecFloat.spec_float * SpecFloat.spec_float * SpecFloat.spec_float) : V3 := match t with (x, y, z) => V (SF2R radix2 x) (SF2R radix2 y) (SF2R radix2 z) end.
  Definition sff (t : SpecFloat.spec_float * SpecFloat.spec_float * SpecFloat.spec_float) : bool := match t with (x, y, z) => is_finite_SF x && is_finite_SF y && is_finite_SF z end%bool.
  Lemma sf3_at (v : mat3x1 bf) : at3 v = sfr (sf3 v). Proof. destruct v as [[x y z]]. cbn [at3 sf3 sfr]. rewrite !SF2R_B2SF. reflexivity. Qed.
  Lemma sf3_fin (v : mat3x1 bf) : sff (sf3 v) = true -> finite3 v.
  Proof. destruct v as [[x y z]]. cbn [sf3 sff finite3]. rewrite !is_finite_SF_B2SF, !andb_true_iff. tauto. Qed.
  Lemma view_never (c c' : vec) (r r' e e' : bf) (x y : shape F) n ts tq td : (24 <= prec)%Z -> view (go (Nm := F) n x y) = Some (ts, tq, td) ->
    sff (sf3 c) = true -> sff (sf3 c') = true -> sff ts = true -> sff tq = true -> sff td = true ->
    is_finite r = true -> B2R r = / 2 -> is_finite r' = true -> B2R r' = / 2 ->
    side_by_side (sfr (sf3 c)) (sfr (sf3 c')) -> past_origin (uro prec) (sfr ts) -> in_ring (sfr tq) (sfr td) ->
    mk_sphere (Nm := F) c r e x -> mk_sphere (Nm := F) c' r' e' y -> forall fuel, query_intersect fuel x y = OutOfFuel.
  Proof.
    intros P G Fc Fc' Fs Fq Fd Fr Vr Fr' Vr' SB PO IR X Y. destruct (go (Nm := F) n x y) as [[[| s [| q [|]]] d] |] eqn:E; try discriminate G. injection G as <- <- <-.
    apply (go_never x y n _ _ E). apply (ring_never c c' r r' e e' s q d x y P); try assumption; try (apply sf3_fin; assumption); rewrite ?sf3_at; assumption.
  Qed.
End Ring2.
