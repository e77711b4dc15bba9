(** Intersect.v — model of [IShape::get_intersect] of the seven shapes.  The Rust code calls [other.get_intersect(self)]
    for some pairs; each such call lands in a branch that does not call back, so the functions can be defined in the
    order ray, sphere, plane, box, prism, line, point without recursion.  No proofs here. *)
From Coq Require Import List ZArith Bool.
Import ListNotations.
From Verif Require Import Base Num Vec Mat Bound Shape.

Section Intersect.
  Context {N : Num}.
  Local Open Scope num_scope.

  (** the result type [(bool, Option<Mat3x1<f64>>)] *)
  Definition hit : Type := (bool * option (mat3x1 N))%type.
  Definition miss : hit := (false, None).

  (** [Mat3x1 { _val: [d[i], d[i+1], d[i+2]] }] *)
  Definition vec_at (d : list N) (i : nat) : res (mat3x1 N) :=
    let! a := idx d i in let! b := idx d (i + 1)%nat in let! c := idx d (i + 2)%nat in Ok (M3x1 (A3 a b c)).

  (** [self._dir.scale(t).unwrap().plus(&self._ori).unwrap()] *)
  Definition along (dir : mat3x1 N) (t : N) (ori : mat3x1 N) : res (mat3x1 N) :=
    let! s := unwrap (mat3x1_scale dir t) in unwrap (mat3x1_plus s ori).

  (** ray.rs:59-140, the branch [ShapeType::Ray] *)
  Definition ray_ray (self : ray3 N) (other_shape_data : list N) : res hit :=
    let a_dir := ray_dir self in
    let! b_dir := vec_at other_shape_data 3 in
    let a_off := ray_ori self in
    let! b_off := vec_at other_shape_data 0 in
    let! c := unwrap (mat3x1_minus b_dir a_dir) in
    let! v := unwrap (mat3x1_cross a_dir b_dir) in
    let! dot_v_c := unwrap (mat3x1_dot v c) in
    if negb (within (ray_vic self) dot_v_c n0) then Ok miss
    else
      let zero := mat3x1_default in
      let! d := unwrap (mat3x1_minus b_off a_off) in
      let! par := unwrap (mat3x1_is_equal v zero (nlit N 1 10000)) in
      if par then
        let point1 := a_dir in
        let! point2 := unwrap (mat3x1_minus b_off a_off) in
        let! cr := unwrap (mat3x1_cross point1 point2) in
        let! triangle_area := unwrap (mat3x1_magnitude cr) in
        if negb (within (ray_vic self) triangle_area n0) then Ok miss
        else
          let! da := unwrap (mat3x1_dot d a_dir) in
          let direction := if nlt da n0 then nlit N (-1) 1 else n1 in
          let! dm := unwrap (mat3x1_magnitude d) in
          let! am := unwrap (mat3x1_magnitude a_dir) in
          let distance := direction * dm / am in
          if nlt distance n0 then Ok (true, Some a_off)
          else let! p := along (ray_dir self) distance (ray_ori self) in Ok (true, Some p)
      else
        let! numerator := unwrap (mat3x1_cross d b_dir) in
        let! nm := unwrap (mat3x1_magnitude numerator) in
        let! vm := unwrap (mat3x1_magnitude v) in
        let t := nm / vm in
        if nlt t n0 then Ok miss
        else let! p := along (ray_dir self) t (ray_ori self) in Ok (true, Some p).

  (** ray.rs:141-165, the branch [ShapeType::Point] *)
  Definition ray_point (self : ray3 N) (other_shape_data : list N) : res hit :=
    let! b_off := vec_at other_shape_data 0 in
    let a_dir := ray_dir self in
    let a_off := ray_ori self in
    let! df := unwrap (mat3x1_minus b_off a_off) in
    let! t := unwrap (mat3x1_div df a_dir) in
    let! t0 := mat3x1_index t 0 in
    let! t1 := mat3x1_index t 1 in
    let! t2 := mat3x1_index t 2 in
    if (negb (within (ray_vic self) t0 t1) || negb (within (ray_vic self) t1 t2))%bool then Ok miss
    else if nge t0 n0 then let! p := along a_dir t0 a_off in Ok (true, Some p)
    else Ok miss.

  (** ray.rs:166-213, the branch [ShapeType::Sphere] *)
  Definition ray_sphere (self : ray3 N) (other_shape_data : list N) : res hit :=
    let! b_off := vec_at other_shape_data 0 in
    let! b_r := idx other_shape_data 3 in
    let a_dir := ray_dir self in
    let a_off := ray_ori self in
    let! relative_offset := unwrap (mat3x1_minus a_off b_off) in
    let! b := unwrap (mat3x1_dot relative_offset a_dir) in
    let! rr := unwrap (mat3x1_dot relative_offset relative_offset) in
    let c := rr - b_r * b_r in
    if (ngt b n0 && ngt c n0)%bool then Ok miss
    else
      let d := b * b - c in
      if nlt d n0 then Ok miss
      else
        let t1 := - b - nsqrt N d in
        let t2 := - b + nsqrt N d in
        let t := if nlt t1 n0 then t2 else if nlt t2 n0 then t1 else if nlt t1 t2 then t1 else t2 in
        let! p := along a_dir t a_off in Ok (true, Some p).

  (** ray.rs:214-259, the branch [ShapeType::Plane] *)
  Definition ray_plane (self : ray3 N) (other_shape_data : list N) : res hit :=
    let! b_off := vec_at other_shape_data 0 in
    let! b_nor := vec_at other_shape_data 3 in
    let! constant := unwrap (mat3x1_dot b_off b_nor) in
    let! no := unwrap (mat3x1_dot b_nor (ray_ori self)) in
    let numerator := constant - no in
    let! denominator := unwrap (mat3x1_dot b_nor (ray_dir self)) in
    if neqb denominator n0 then
      let! on := unwrap (mat3x1_dot (ray_ori self) b_nor) in
      if neqb constant on then Ok (true, Some (ray_ori self)) else Ok miss
    else if ngt denominator n0 then Ok miss
    else
      let t := numerator / denominator in
      if nlt t n0 then Ok miss
      else let! p := along (ray_dir self) t (ray_ori self) in Ok (true, Some p).

  (** ray.rs:54-265 *)
  Definition ray_get_intersect (self : ray3 N) (other : shape N) : res hit :=
    let! bi := ibound_intersect (shape_get_bound (SRay self)) (shape_get_bound other) in
    if negb bi then Ok miss
    else
      match shape_get_type other with
      | TRay => ray_ray self (shape_get_shape_data other)
      | TPoint => ray_point self (shape_get_shape_data other)
      | TSphere => ray_sphere self (shape_get_shape_data other)
      | TPlane => ray_plane self (shape_get_shape_data other)
      | _ => Panic PUnimplemented
      end.

  (** sphere.rs:46-68, the branch [ShapeType::Sphere] *)
  Definition sphere_sphere (self : sphere N) (other_shape_data : list N) : res hit :=
    let! b_off := vec_at other_shape_data 0 in
    let a_r := sp_radius self in
    let! b_r := idx other_shape_data 3 in
    let a_off := sp_ori self in
    let! c := unwrap (mat3x1_minus b_off a_off) in
    let! d := unwrap (mat3x1_magnitude c) in
    if ngt d (b_r + a_r) then Ok miss
    else
      let f := a_r / (a_r + b_r) in
      let! g := unwrap (mat3x1_scale c f) in
      let! p := unwrap (mat3x1_plus a_off g) in
      Ok (true, Some p).

  (** sphere.rs:73-89, the branch [ShapeType::Point] *)
  Definition sphere_point (self : sphere N) (other_shape_data : list N) : res hit :=
    let! b_off := vec_at other_shape_data 0 in
    let! d := unwrap (mat3x1_minus b_off (sp_ori self)) in
    let! r := for_ret (seq 0 3) (fun i =>
      let! di := mat3x1_index d i in
      if ngt di (sp_radius self) then Ok (Ret miss) else Ok Next) in
    match r with Some h => Ok h | None => Ok (true, Some b_off) end.

  (** sphere.rs:90-123, the branch [ShapeType::Plane] *)
  Definition sphere_plane (self : sphere N) (other_shape_data : list N) : res hit :=
    let! b_off := vec_at other_shape_data 0 in
    let! b_nor := vec_at other_shape_data 3 in
    let! k := unwrap (mat3x1_dot b_nor b_off) in
    let! no := unwrap (mat3x1_dot b_nor (sp_ori self)) in
    let t := no - k in
    if ngt t (sp_radius self) then Ok miss
    else let! p := along b_nor (- t) (sp_ori self) in Ok (true, Some p).

  (** sphere.rs:41-130 *)
  Definition sphere_get_intersect (self : sphere N) (other : shape N) : res hit :=
    let! bi := ibound_intersect (shape_get_bound (SSphere self)) (shape_get_bound other) in
    if negb bi then Ok miss
    else
      match other with
      | SSphere _ => sphere_sphere self (shape_get_shape_data other)
      | SRay r => ray_get_intersect r (SSphere self)
      | SPoint _ => sphere_point self (shape_get_shape_data other)
      | SPlane _ => sphere_plane self (shape_get_shape_data other)
      | _ => Panic PUnimplemented
      end.

  (** plane.rs:72-88, the branch [ShapeType::Point] *)
  Definition plane_point (self : plane N) (other_shape_data : list N) : res hit :=
    let! b_off := vec_at other_shape_data 0 in
    let! k := unwrap (mat3x1_dot (pl_normal self) (pl_offset self)) in
    let! c := unwrap (mat3x1_dot (pl_normal self) b_off) in
    let d := k - c in
    if negb (within (pl_vic self) d n0) then Ok miss else Ok (true, Some b_off).

  (** plane.rs:56-94 *)
  Definition plane_get_intersect (self : plane N) (other : shape N) : res hit :=
    let! bi := ibound_intersect (shape_get_bound (SPlane self)) (shape_get_bound other) in
    if negb bi then Ok miss
    else
      match other with
      | SPlane _ => Panic PUnimplemented
      | SRay r => ray_get_intersect r (SPlane self)
      | SSphere s => sphere_get_intersect s (SPlane self)
      | SPoint _ => plane_point self (shape_get_shape_data other)
      | _ => Panic PUnimplemented
      end.

  (** rbox.rs:41-63 *)
  Definition recbox_get_intersect (self : recbox N) (other : shape N) : res hit :=
    let! bi := ibound_intersect (shape_get_bound (SBox self)) (shape_get_bound other) in
    if negb bi then Ok miss
    else
      match shape_get_type other with
      | TPoint => let! b_off := vec_at (shape_get_shape_data other) 0 in Ok (true, Some b_off)
      | _ => Panic PUnimplemented
      end.

  (** [self._tri_base[j].minus(&self._tri_base[i]).unwrap().cross(&n).unwrap()] *)
  Definition side_normal (vi vj n : mat3x1 N) : res (mat3x1 N) :=
    let! e := unwrap (mat3x1_minus vj vi) in unwrap (mat3x1_cross e n).

  (** triprism.rs:167-194 = 227-254: the vector [tests] of (vertex, outward normal) pairs *)
  Definition triprism_tests (self : triprism N) : res (list (mat3x1 N * mat3x1 N)) :=
    let n := tp_nh self in
    match tp_base self, tp_base2 self with A3 b0 b1 b2, A3 c0 c1 c2 =>
      let! nm := unwrap (mat3x1_scale n (nlit N (-1) 1)) in
      let! n2 := side_normal b0 b1 n in
      let! n3 := side_normal b1 b2 n in
      let! n4 := side_normal b2 b0 n in
      Ok [(b0, nm); (c0, n); (b0, n2); (b1, n3); (b2, n4)]
    end.

  (** [tests.iter().all(|(vert, normal)| !(p.minus(vert).unwrap().dot(normal).unwrap() > 0.))]
      (triprism.rs:196-198, 256-261, 346-348) *)
  Definition all_inside (tests : list (mat3x1 N * mat3x1 N)) (p : mat3x1 N) : res bool :=
    iter_all tests (fun vn =>
      let! d := unwrap (mat3x1_minus p (fst vn)) in
      let! x := unwrap (mat3x1_dot d (snd vn)) in
      Ok (negb (ngt x n0))).

  (** triprism.rs:153-205, the branch [ShapeType::Point] *)
  Definition triprism_point (self : triprism N) (other_shape_data : list N) : res hit :=
    let! other_point := vec_at other_shape_data 0 in
    let! tests := triprism_tests self in
    let! is_inside := all_inside tests other_point in
    Ok (if is_inside then (true, Some other_point) else miss).

  (** [Plane::init(&[o[0], o[1], o[2]], &[n[0], n[1], n[2]])] *)
  Definition plane_of (o n : mat3x1 N) : res (plane N) := plane_init (vec_data o) (vec_data n).

  (** triprism.rs:271-335: the ray and the five facet planes.  The loop of 337-358 is the [for_ret]. *)
  Definition triprism_line (self : triprism N) (other_shape_data : list N) : res hit :=
    let! a := vec_at other_shape_data 0 in
    let! b := vec_at other_shape_data 3 in
    let! tests := triprism_tests self in
    let! a_is_inside := all_inside tests a in
    let! b_is_inside := all_inside tests b in
    if a_is_inside then Ok (true, Some a)
    else if b_is_inside then Ok (true, Some b)
    else
      let! v := unwrap (mat3x1_minus b a) in
      let! mag := unwrap (mat3x1_magnitude v) in
      let! r := ray_init (vec_data a) (vec_data v) in
      let n1 := tp_nh self in
      let! n0' := unwrap (mat3x1_scale n1 (nlit N (-1) 1)) in
      match tp_base self, tp_base2 self with A3 b0 b1 b2, A3 c0 c1 c2 =>
        let! n2 := side_normal b0 b1 n1 in
        let! n3 := side_normal b1 b2 n1 in
        let! n4 := side_normal b2 b0 n1 in
        let! p0 := plane_of b0 n0' in
        let! p1 := plane_of c0 n1 in
        let! p2 := plane_of b0 n2 in
        let! p3 := plane_of b1 n3 in
        let! p4 := plane_of b2 n4 in
        let facets := [p0; p1; p2; p3; p4] in
        let! found := for_ret facets (fun i =>
          let! res := ray_get_intersect r (SPlane i) in
          if fst res then
            let! collide_point := unwrap (snd res) in
            let! df := unwrap (mat3x1_minus collide_point a) in
            let! mag2 := unwrap (mat3x1_magnitude df) in
            let! is_point_inside := all_inside tests collide_point in
            if (negb is_point_inside || ngt mag2 mag)%bool then Ok Next
            else Ok (Ret (snd res))
          else Ok Next) in
        match found with
        | Some intersect_point => Ok (true, intersect_point)
        | None => Ok miss
        end
      end.

  (** triprism.rs:148-371 *)
  Definition triprism_get_intersect (self : triprism N) (other : shape N) : res hit :=
    let! bi := ibound_intersect (shape_get_bound (SPrism self)) (shape_get_bound other) in
    if negb bi then Ok miss
    else
      match shape_get_type other with
      | TPoint => triprism_point self (shape_get_shape_data other)
      | TLine => triprism_line self (shape_get_shape_data other)
      | _ => Panic PUnimplemented
      end.

  (** line.rs:83-94 *)
  Definition line_get_intersect (self : line3 N) (other : shape N) : res hit :=
    let! bi := ibound_intersect (shape_get_bound (SLine self)) (shape_get_bound other) in
    if negb bi then Ok miss
    else
      match other with
      | SPrism t => triprism_get_intersect t (SLine self)
      | _ => Panic PUnimplemented
      end.

  (** point.rs:44-54, the branch [ShapeType::Point] *)
  Definition point_point (self : point3 N) (other_shape_data : list N) : res hit :=
    let! o0 := mat3x1_index (pt_ori self) 0 in let! d0 := idx other_shape_data 0 in
    let! o1 := mat3x1_index (pt_ori self) 1 in let! d1 := idx other_shape_data 1 in
    let! o2 := mat3x1_index (pt_ori self) 2 in let! d2 := idx other_shape_data 2 in
    if (negb (within (pt_vic self) o0 d0) || negb (within (pt_vic self) o1 d1)
        || negb (within (pt_vic self) o2 d2))%bool
    then Ok miss
    else Ok (true, Some (pt_ori self)).

  (** point.rs:39-80 *)
  Definition point_get_intersect (self : point3 N) (other : shape N) : res hit :=
    let! bi := ibound_intersect (shape_get_bound (SPoint self)) (shape_get_bound other) in
    if negb bi then Ok miss
    else
      match other with
      | SPoint _ => point_point self (shape_get_shape_data other)
      | SRay r => ray_get_intersect r (SPoint self)
      | SSphere s => sphere_get_intersect s (SPoint self)
      | SPlane p => plane_get_intersect p (SPoint self)
      | SBox b => recbox_get_intersect b (SPoint self)
      | SPrism t => triprism_get_intersect t (SPoint self)
      | _ => Panic PUnimplemented
      end.

  (** [a.get_intersect(b)] for trait objects *)
  Definition shape_get_intersect (self other : shape N) : res hit :=
    match self with
    | SPoint p => point_get_intersect p other
    | SRay r => ray_get_intersect r other
    | SSphere s => sphere_get_intersect s other
    | SPlane p => plane_get_intersect p other
    | SLine l => line_get_intersect l other
    | SBox b => recbox_get_intersect b other
    | SPrism t => triprism_get_intersect t other
    end.
End Intersect.
