(** Shape.v — model of the seven shape structs (lib/point.rs, ray.rs, sphere.rs, plane.rs, line.rs, rbox.rs,
    triprism.rs): constructors, get_shape_data, get_type, get_bound, get_support, vicinity.  Trait objects
    [&dyn IShape] are a closed sum over the seven implementors.  No proofs here. *)
From Coq Require Import List ZArith Bool.
Import ListNotations.
From Verif Require Import Base Num Vec Mat Bound.

(** point.rs:8-13 *)
Record point3 (T : Type) := MkPoint { pt_ori : mat3x1 T; pt_bound : aabb T; pt_vic : T }.
Arguments MkPoint {T}. Arguments pt_ori {T} _. Arguments pt_bound {T} _. Arguments pt_vic {T} _.
(** ray.rs:9-15 *)
Record ray3 (T : Type) := MkRay { ray_ori : mat3x1 T; ray_dir : mat3x1 T; ray_bound : aabb T; ray_vic : T }.
Arguments MkRay {T}. Arguments ray_ori {T} _. Arguments ray_dir {T} _. Arguments ray_bound {T} _. Arguments ray_vic {T} _.
(** sphere.rs:8-14 *)
Record sphere (T : Type) := MkSphere { sp_ori : mat3x1 T; sp_radius : T; sp_bound : aabb T; sp_vic : T }.
Arguments MkSphere {T}. Arguments sp_ori {T} _. Arguments sp_radius {T} _. Arguments sp_bound {T} _. Arguments sp_vic {T} _.
(** plane.rs:8-14 *)
Record plane (T : Type) := MkPlane { pl_offset : mat3x1 T; pl_normal : mat3x1 T; pl_bound : aabb T; pl_vic : T }.
Arguments MkPlane {T}. Arguments pl_offset {T} _. Arguments pl_normal {T} _. Arguments pl_bound {T} _. Arguments pl_vic {T} _.
(** line.rs:8-14 *)
Record line3 (T : Type) := MkLine { ln_a : mat3x1 T; ln_b : mat3x1 T; ln_bound : aabb T; ln_vic : T }.
Arguments MkLine {T}. Arguments ln_a {T} _. Arguments ln_b {T} _. Arguments ln_bound {T} _. Arguments ln_vic {T} _.
(** rbox.rs:8-14 *)
Record recbox (T : Type) := MkBox { bx_ori : mat3x1 T; bx_size : T; bx_bound : aabb T; bx_vic : T }.
Arguments MkBox {T}. Arguments bx_ori {T} _. Arguments bx_size {T} _. Arguments bx_bound {T} _. Arguments bx_vic {T} _.
(** triprism.rs:12-26 *)
Record triprism (T : Type) := MkPrism {
  tp_base : arr3 (mat3x1 T); tp_base2 : arr3 (mat3x1 T); tp_nh : mat3x1 T; tp_bound : aabb T; tp_vic : T }.
Arguments MkPrism {T}. Arguments tp_base {T} _. Arguments tp_base2 {T} _. Arguments tp_nh {T} _.
Arguments tp_bound {T} _. Arguments tp_vic {T} _.

(** [&dyn IShape] *)
Inductive shape (T : Type) :=
| SPoint (p : point3 T) | SRay (r : ray3 T) | SSphere (s : sphere T) | SPlane (p : plane T)
| SLine (l : line3 T) | SBox (b : recbox T) | SPrism (t : triprism T).
Arguments SPoint {T} p. Arguments SRay {T} r. Arguments SSphere {T} s. Arguments SPlane {T} p.
Arguments SLine {T} l. Arguments SBox {T} b. Arguments SPrism {T} t.

Section Shape.
  Context {N : Num}.
  Local Open Scope num_scope.

  (** the literal [0.000001f64] of every [init] *)
  Definition vicinity0 : N := nlit N 1 1000000.

  (** [Mat3x1 { _val: [v[0], v[1], v[2]] }] *)
  Definition vec_of_slice (v : list N) : res (mat3x1 N) :=
    let! v0 := idx v 0 in let! v1 := idx v 1 in let! v2 := idx v 2 in Ok (M3x1 (A3 v0 v1 v2)).
  (** [v.normalize().unwrap()] *)
  Definition normalize_unwrap (v : mat3x1 N) : res (mat3x1 N) := let! o := mat3x1_normalize v in unwrap o.

  (** point.rs:16-26 *)
  Definition point_init (origin : list N) : res (point3 N) :=
    let! _u := assert (Nat.eqb (length origin) 3) in
    let! ori := vec_of_slice origin in
    let! o := slice origin 0 3 in
    let! b := aabb_init TPoint o in
    Ok (MkPoint ori b vicinity0).
  (** ray.rs:18-33 *)
  Definition ray_init (origin dir : list N) : res (ray3 N) :=
    let! _u := assert (Nat.eqb (length origin) 3) in
    let! _u := assert (Nat.eqb (length dir) 3) in
    let! ori := vec_of_slice origin in
    let! d := vec_of_slice dir in
    let! d := normalize_unwrap d in
    let! o := slice origin 0 3 in
    let! s := slice dir 0 3 in
    let! b := aabb_init TRay (o ++ s) in
    Ok (MkRay ori d b vicinity0).
  (** sphere.rs:17-27 *)
  Definition sphere_init (origin : list N) (r : N) : res (sphere N) :=
    let! _u := assert (Nat.eqb (length origin) 3) in
    let! ori := vec_of_slice origin in
    let! o := slice origin 0 3 in
    let! b := aabb_init TSphere (o ++ [r]) in
    Ok (MkSphere ori r b vicinity0).
  (** plane.rs:17-35 *)
  Definition plane_init (offset normal : list N) : res (plane N) :=
    let! _u := assert (Nat.eqb (length offset) 3) in
    let! _u := assert (Nat.eqb (length normal) 3) in
    let! off := vec_of_slice offset in
    let! n := vec_of_slice normal in
    let! n := normalize_unwrap n in
    let! o := slice offset 0 3 in
    let! s := slice normal 0 3 in
    let! b := aabb_init TPlane (o ++ s) in
    Ok (MkPlane off n b vicinity0).
  (** [*xs.iter().min_by(|a, b| a.partial_cmp(b).unwrap_or(Equal)).unwrap()] *)
  Definition slice_min (xs : list N) : res N := let! o := min_by cmp_or_equal xs in unwrap o.
  (** [*xs.iter().max_by(|a, b| a.partial_cmp(b).unwrap_or(Equal)).unwrap()] *)
  Definition slice_max (xs : list N) : res N := let! o := max_by cmp_or_equal xs in unwrap o.
  (** line.rs:17-67 *)
  Definition line_init (a b : list N) : res (line3 N) :=
    let! _u := assert (Nat.eqb (length a) 3) in
    let! _u := assert (Nat.eqb (length b) 3) in
    let! a0 := idx a 0 in let! a1 := idx a 1 in let! a2 := idx a 2 in
    let! b0 := idx b 0 in let! b1 := idx b 1 in let! b2 := idx b 2 in
    let xs := [a0; b0] in
    let ys := [a1; b1] in
    let zs := [a2; b2] in
    let! x_min := slice_min xs in let! x_max := slice_max xs in
    let! y_min := slice_min ys in let! y_max := slice_max ys in
    let! z_min := slice_min zs in let! z_max := slice_max zs in
    let! bd := aabb_init TRect [x_min; y_min; z_min; x_max; y_max; z_max] in
    Ok (MkLine (M3x1 (A3 a0 a1 a2)) (M3x1 (A3 b0 b1 b2)) bd vicinity0).
  (** rbox.rs:17-27 *)
  Definition recbox_init (origin : list N) (size : N) : res (recbox N) :=
    let! _u := assert (Nat.eqb (length origin) 3) in
    let! ori := vec_of_slice origin in
    let! o := slice origin 0 3 in
    let! b := aabb_init TBox (o ++ [size]) in
    Ok (MkBox ori size b vicinity0).
  (** triprism.rs:30-121 *)
  Definition triprism_init (tri_base : list N) (height : N) : res (triprism N) :=
    let! _u := assert (Nat.eqb (length tri_base) 9) in
    let! t0 := idx tri_base 0 in let! t1 := idx tri_base 1 in let! t2 := idx tri_base 2 in
    let! t3 := idx tri_base 3 in let! t4 := idx tri_base 4 in let! t5 := idx tri_base 5 in
    let! t6 := idx tri_base 6 in let! t7 := idx tri_base 7 in let! t8 := idx tri_base 8 in
    let v0 := M3x1 (A3 t0 t1 t2) in
    let v1 := M3x1 (A3 t3 t4 t5) in
    let v2 := M3x1 (A3 t6 t7 t8) in
    let! d1 := unwrap (mat3x1_minus v1 v0) in
    let! d2 := unwrap (mat3x1_minus v2 v0) in
    let! c := unwrap (mat3x1_cross d1 d2) in
    let! normal := normalize_unwrap c in
    let! h_offset := unwrap (mat3x1_scale normal height) in
    let! v00 := unwrap (mat3x1_plus v0 h_offset) in
    let! v11 := unwrap (mat3x1_plus v1 h_offset) in
    let! v22 := unwrap (mat3x1_plus v2 h_offset) in
    let base := A3 v0 v1 v2 in
    let base2 := A3 v00 v11 v22 in
    let verts := [v0; v1; v2; v00; v11; v22] in
    let! xs := iter_map verts (fun v => mat3x1_index v 0) in
    let! ys := iter_map verts (fun v => mat3x1_index v 1) in
    let! zs := iter_map verts (fun v => mat3x1_index v 2) in
    let! x_min := slice_min xs in let! x_max := slice_max xs in
    let! y_min := slice_min ys in let! y_max := slice_max ys in
    let! z_min := slice_min zs in let! z_max := slice_max zs in
    let! bd := aabb_init TRect [x_min; y_min; z_min; x_max; y_max; z_max] in
    Ok (MkPrism base base2 h_offset bd vicinity0).
  (** triprism.rs:12  #[derive(Default)] *)
  Definition triprism_default : triprism N :=
    let z := mat3x1_default in MkPrism (A3 z z z) (A3 z z z) z aabb_default n0.

  Definition vec_data (v : mat3x1 N) : list N := list3 (v3x1 v).
  (** get_shape_data: point.rs:29-31, ray.rs:37-46, sphere.rs:31-33, plane.rs:39-48, line.rs:71-75, rbox.rs:31-33,
      triprism.rs:125-140 *)
  Definition shape_get_shape_data (s : shape N) : list N :=
    match s with
    | SPoint p => vec_data (pt_ori p)
    | SRay r => vec_data (ray_ori r) ++ vec_data (ray_dir r)
    | SSphere s => vec_data (sp_ori s) ++ [sp_radius s]
    | SPlane p => vec_data (pl_offset p) ++ vec_data (pl_normal p)
    | SLine l => vec_data (ln_a l) ++ vec_data (ln_b l)
    | SBox b => vec_data (bx_ori b) ++ [bx_size b]
    | SPrism t =>
        match tp_base t with A3 v0 v1 v2 => vec_data v0 ++ vec_data v1 ++ vec_data v2 end ++ vec_data (tp_nh t)
    end.
  (** get_type: point.rs:32-34, ray.rs:47-49, sphere.rs:34-36, plane.rs:49-51, line.rs:76-78, rbox.rs:34-36,
      triprism.rs:141-143 *)
  Definition shape_get_type (s : shape N) : shape_type :=
    match s with
    | SPoint _ => TPoint | SRay _ => TRay | SSphere _ => TSphere | SPlane _ => TPlane
    | SLine _ => TLine | SBox _ => TBox | SPrism _ => TTriPrism
    end.
  (** get_bound: point.rs:35-37, ray.rs:50-52, sphere.rs:37-39, plane.rs:52-54, line.rs:79-81, rbox.rs:37-39,
      triprism.rs:144-146 *)
  Definition shape_get_bound (s : shape N) : ibound N :=
    BBox match s with
    | SPoint p => pt_bound p | SRay r => ray_bound r | SSphere s => sp_bound s | SPlane p => pl_bound p
    | SLine l => ln_bound l | SBox b => bx_bound b | SPrism t => tp_bound t
    end.
  (** the field [_vicinity] *)
  Definition shape_vicinity (s : shape N) : N :=
    match s with
    | SPoint p => pt_vic p | SRay r => ray_vic r | SSphere s => sp_vic s | SPlane p => pl_vic p
    | SLine l => ln_vic l | SBox b => bx_vic b | SPrism t => tp_vic t
    end.
  (** set_vicinity: point.rs:87-89, ray.rs:272-274, sphere.rs:150-152, plane.rs:101-103, line.rs:101-103,
      rbox.rs:113-115, triprism.rs:401-403; the new value is returned *)
  Definition shape_set_vicinity (s : shape N) (epsilon : N) : shape N :=
    let e := nabs N epsilon in
    match s with
    | SPoint p => SPoint (MkPoint (pt_ori p) (pt_bound p) e)
    | SRay r => SRay (MkRay (ray_ori r) (ray_dir r) (ray_bound r) e)
    | SSphere s => SSphere (MkSphere (sp_ori s) (sp_radius s) (sp_bound s) e)
    | SPlane p => SPlane (MkPlane (pl_offset p) (pl_normal p) (pl_bound p) e)
    | SLine l => SLine (MkLine (ln_a l) (ln_b l) (ln_bound l) e)
    | SBox b => SBox (MkBox (bx_ori b) (bx_size b) (bx_bound b) e)
    | SPrism t => SPrism (MkPrism (tp_base t) (tp_base2 t) (tp_nh t) (tp_bound t) e)
    end.
  (** within_vicinity, the same code in every shape: point.rs:90-96, ray.rs:275-281, sphere.rs:153-159,
      plane.rs:104-110, line.rs:104-110, rbox.rs:116-122, triprism.rs:404-410 *)
  Definition within (vic a b : N) : bool := (nge (a + vic) b && nle (a - vic) b)%bool.
  Definition shape_within_vicinity (s : shape N) (a b : N) : bool := within (shape_vicinity s) a b.

  (** [v.magnitude() != Some(0f64)] *)
  Definition magnitude_nonzero (v : mat3x1 N) : bool :=
    match mat3x1_magnitude v with Some m => nne m n0 | None => true end.
  (** [points.iter().map(|x| x.dot(v).unwrap()).enumerate().max_by(|a, b| a.1.partial_cmp(&b.1).unwrap()).unwrap().0]
      (rbox.rs:93-98, triprism.rs:384-389) *)
  Definition furthest_index (points : list (mat3x1 N)) (v : mat3x1 N) : res nat :=
    let! dots := iter_map points (fun x => unwrap (mat3x1_dot x v)) in
    let! m := max_by (fun a b : nat * N => unwrap (ncmp N (snd a) (snd b))) (enumerate dots) in
    let! f := unwrap m in
    Ok (fst f).
  (** rbox.rs:67-91 *)
  Definition recbox_corners (s : N) : list (mat3x1 N) :=
    [ M3x1 (A3 s s s); M3x1 (A3 (- s) s s); M3x1 (A3 s (- s) s); M3x1 (A3 (- s) (- s) s);
      M3x1 (A3 s s (- s)); M3x1 (A3 (- s) s (- s)); M3x1 (A3 s (- s) (- s)); M3x1 (A3 (- s) (- s) (- s)) ].

  (** get_support: point.rs:81-83 *)
  Definition point_get_support (self : point3 N) (v : mat3x1 N) : res (option (mat3x1 N)) := Ok (Some (pt_ori self)).
  (** sphere.rs:131-146 *)
  Definition sphere_get_support (self : sphere N) (v : mat3x1 N) : res (option (mat3x1 N)) :=
    if magnitude_nonzero v then
      let! n := normalize_unwrap v in
      let! v_adjusted := unwrap (mat3x1_scale n (sp_radius self)) in
      let! o := unwrap (mat3x1_plus (sp_ori self) v_adjusted) in
      Ok (Some o)
    else Ok None.
  (** rbox.rs:64-109 *)
  Definition recbox_get_support (self : recbox N) (v : mat3x1 N) : res (option (mat3x1 N)) :=
    if magnitude_nonzero v then
      let points := recbox_corners (bx_size self) in
      let! f := furthest_index points v in
      let! p := idx points f in
      let! o := unwrap (mat3x1_plus (bx_ori self) p) in
      Ok (Some o)
    else Ok None.
  (** triprism.rs:372-397 *)
  Definition triprism_get_support (self : triprism N) (v : mat3x1 N) : res (option (mat3x1 N)) :=
    if magnitude_nonzero v then
      let points := list3 (tp_base self) ++ list3 (tp_base2 self) in
      let! f := furthest_index points v in
      let! o := idx points f in
      Ok (Some o)
    else Ok None.
  (** ray.rs:266-268, plane.rs:95-97: None; line.rs:95-97: unimplemented!() *)
  Definition shape_get_support (s : shape N) (v : mat3x1 N) : res (option (mat3x1 N)) :=
    match s with
    | SPoint p => point_get_support p v
    | SRay _ => Ok None
    | SSphere s => sphere_get_support s v
    | SPlane _ => Ok None
    | SLine _ => Panic PUnimplemented
    | SBox b => recbox_get_support b v
    | SPrism t => triprism_get_support t v
    end.
End Shape.
