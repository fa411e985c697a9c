(** * C52-C56: parameter distributions

    The first argument of every function says whether PyMC 3 is in use.  The
    result is the list of statements executed in the model, and the returned
    value as a function of the values e of the random variables. *)
From Coq Require Import Reals List Bool Arith ZArith String.
From Verif Require Import Num CoreOps Inst M_kwargs M_tensor M_limbdark M_dist Spec_array Spec_light Spec_dist L_dist1 L_dist2 L_dist3 L_dist4 Ex_dist L_start.
Import ListNotations.
Local Notation length := List.length.
Open Scope R_scope.

(** ** C52: angle *)
(** it declares two normal variables, and its value is the angle whose sine
    and cosine they are proportional to *)
Theorem C52_value : forall p name reg kw ss out, angle p name reg kw = Ok (ss, out) ->
  exists n1 n2 kw1 kw2 rest, ss = Free [] n1 "Normal" kw1 :: Free [] n2 "Normal" kw2 :: rest /\ n1 <> n2 /\ List.Forall no_variable rest /\
    In (Determ [] name out) rest /\
    forall e i x1 x2, aget (e n1) i = Fin x1 -> aget (e n2) i = Fin x2 -> x1 * x1 + x2 * x2 <> 0 ->
      exists th, aget (out e) i = Fin th /\ - PI < th <= PI /\
        x1 = sqrt (x1 * x1 + x2 * x2) * sin th /\ x2 = sqrt (x1 * x1 + x2 * x2) * cos th.
Proof. exact angle_value. Qed.
Print Assumptions C52_value.

Theorem C52_shape : forall p name reg kw n1 n2 kw1 kw2 rest out, angle p name reg kw = Ok (Free [] n1 "Normal" kw1 :: Free [] n2 "Normal" kw2 :: rest, out) ->
  forall e s, ash (e n1) = Ok s -> ash (e n2) = Ok s -> ash (out e) = Ok s.
Proof. exact angle_shape. Qed.
Print Assumptions C52_shape.

(** rescaling the normal variables does not change the angle *)
Theorem C52_scale : forall p name reg kw n1 n2 kw1 kw2 rest out, angle p name reg kw = Ok (Free [] n1 "Normal" kw1 :: Free [] n2 "Normal" kw2 :: rest, out) ->
  forall e e' i x1 x2 c, aget (e n1) i = Fin x1 -> aget (e n2) i = Fin x2 -> 0 < c ->
    aget (e' n1) i = Fin (c * x1) -> aget (e' n2) i = Fin (c * x2) -> aget (out e') i = aget (out e) i.
Proof. exact angle_scale. Qed.
Print Assumptions C52_scale.

(** rotating the normal variables shifts the angle, and the regularization is
    the same for all angles, so that it favours none *)
Theorem C52_rotation : forall p name reg kw n1 n2 kw1 kw2 rest out, angle p name reg kw = Ok (Free [] n1 "Normal" kw1 :: Free [] n2 "Normal" kw2 :: rest, out) ->
  forall e e' i x1 x2 phi, aget (e n1) i = Fin x1 -> aget (e n2) i = Fin x2 -> x1 * x1 + x2 * x2 <> 0 ->
    aget (e' n1) i = Fin (x1 * cos phi + x2 * sin phi) -> aget (e' n2) i = Fin (x2 * cos phi - x1 * sin phi) ->
    (exists th th' k, aget (out e) i = Fin th /\ aget (out e') i = Fin th' /\ th' = th + phi + IZR k * (2 * PI)) /\
    forall f, In f (potentials rest) -> aget (f e) i = aget (f e') i.
Proof. exact angle_rotation. Qed.
Print Assumptions C52_rotation.

(** the starting value is the requested one, or zero *)
Theorem C52_start : forall p name reg kw ss out v, angle p name reg kw = Ok (ss, out) -> requested kw (PNum v) ->
  forall e i th, at_start p ss e -> aget v i = Fin th -> - PI < th <= PI -> aget (out e) i = Fin th.
Proof. exact angle_start. Qed.
Print Assumptions C52_start.

Theorem C52_default : forall p name reg kw ss out, angle p name reg kw = Ok (ss, out) -> not_requested kw ->
  forall e i, at_start p ss e -> aget (out e) i = Fin 0.
Proof. exact angle_start_default. Qed.
Print Assumptions C52_default.

(** calls with a sensible shape succeed *)
Theorem C52_total : forall p name reg kw s v, shape_is kw s -> requested kw (PNum v) \/ (not_requested kw /\ ash v = Ok s /\ forall i, aget v i = Fin 0) ->
  exists ss out, angle p name reg kw = Ok (ss, out).
Proof. exact angle_total. Qed.
Print Assumptions C52_total.

Example C52_example : exists ss out e, angle false "phi" (Some (alit (Fin 10))) ex_kw = Ok (ss, out) /\
  requested ex_kw (PNum (alit (Fin 1))) /\ shape_is ex_kw [] /\ at_start false ss e /\ - PI < 1 <= PI /\ (potentials ss <> []) /\
  aget (out e) (fun _ => O) = Fin 1.
Proof. exact angle_example. Qed.

(** ** C53: unit_disk *)
(** the two variables are uniform on (-1, 1); their values are mapped one to
    one onto the open unit disk; the potential is the logarithm of the Jacobian
    determinant of the map, so that the density on the disk is uniform *)
Theorem C53_value : forall p nx ny kw ss x y, unit_disk p nx ny kw = Ok (ss, (x, y)) ->
  exists n1 n2 kw1 kw2 rest f g q, ss = Free [] n1 "Uniform" kw1 :: Free [] n2 "Uniform" kw2 :: rest /\ List.Forall no_variable rest /\
    on_interval (-1) 1 kw1 /\ on_interval (-1) 1 kw2 /\ n1 = nx /\ In (Determ [] ny y) rest /\ potentials rest = [q] /\
    (forall e i a b, aget (e n1) i = Fin a -> aget (e n2) i = Fin b -> -1 < a < 1 -> -1 < b < 1 ->
       aget (x e) i = Fin (f a b) /\ aget (y e) i = Fin (g a b) /\
       exists J, jacobian f g a b J /\ aget (q e) i = Fin (ln (Rabs J))) /\
    one_to_one f g (fun a b => -1 < a < 1 /\ -1 < b < 1) (fun u v => u * u + v * v < 1).
Proof. exact disk_value. Qed.
Print Assumptions C53_value.

(** the starting value: x is the requested one, y is not *)
Theorem C53_start : forall p nx ny kw ss x y v d, unit_disk p nx ny kw = Ok (ss, (x, y)) -> requested kw (PNum v) -> ash v = Ok d ->
  forall e i x0 y0, at_start p ss e -> aget v (set_ix (length d - 1) 0 i) = Fin x0 -> aget v (set_ix (length d - 1) 1 i) = Fin y0 -> -1 < x0 < 1 ->
    aget (x e) i = Fin x0 /\ aget (y e) i = Fin (y0 * (1 - x0 * x0)).
Proof. exact disk_start. Qed.
Print Assumptions C53_start.

Theorem C53_start_refuted : exists ss x y e, unit_disk false "h" "k" (ex_kw2 (1 / 2) (1 / 2)) = Ok (ss, (x, y)) /\
  requested (ex_kw2 (1 / 2) (1 / 2)) (PNum (ex_pair (1 / 2) (1 / 2))) /\ at_start false ss e /\
  aget (y e) (fun _ => O) <> Fin (1 / 2).
Proof. exact disk_example. Qed.
Print Assumptions C53_start_refuted.

Theorem C53_total : forall p nx ny kw s, shape_is kw s ->
  not_requested kw \/ (exists v d m, requested kw (PNum v) /\ ash v = Ok (d ++ [m]) /\ (2 <= m)%nat) ->
  exists ss xy, unit_disk p nx ny kw = Ok (ss, xy).
Proof. exact disk_total. Qed.
Print Assumptions C53_total.

Example C53_example : shape_is (ex_kw2 (1 / 2) (1 / 2)) [] /\ requested (ex_kw2 (1 / 2) (1 / 2)) (PNum (ex_pair (1 / 2) (1 / 2))) /\
  ash (ex_pair (1 / 2) (1 / 2)) = Ok ([] ++ [2%nat]).
Proof. split; [left; split; reflexivity|]. split; [left; reflexivity|reflexivity]. Qed.

(** ** C54: quad_limb_dark *)
(** the two variables are uniform on (0, 1); the coefficients are always those
    of a physical limb-darkening law (nowhere negative, not brighter towards the
    limb); every physical law with u1 + u2 > 0 is obtained exactly once; the
    Jacobian is constant, so that the density on those laws is uniform *)
Theorem C54_value : forall p name kw ss out, quad_limb_dark p name kw = Ok (ss, out) ->
  exists c n1 n2 kw1 kw2 rest f g, ss = c :: Free [] n1 "Uniform" kw1 :: Free [] n2 "Uniform" kw2 :: rest /\ no_variable c /\ n1 <> n2 /\ List.Forall no_variable rest /\
    on_interval 0 1 kw1 /\ on_interval 0 1 kw2 /\ In (Determ [] name out) rest /\ potentials ss = [] /\
    (forall e i s a b, ash (e n1) = Ok s -> ash (e n2) = Ok s -> aget (e n1) i = Fin a -> aget (e n2) i = Fin b -> 0 <= a ->
       ash (out e) = Ok (s ++ [2%nat]) /\
       (i (length s) = 0%nat -> aget (out e) i = Fin (f a b)) /\ (i (length s) = 1%nat -> aget (out e) i = Fin (g a b))) /\
    (forall a b, 0 <= a <= 1 -> 0 <= b <= 1 -> physical_law (intensity (f a b) (g a b))) /\
    one_to_one f g (fun a b => 0 < a <= 1 /\ 0 <= b <= 1) (fun u1 u2 => physical_law (intensity u1 u2) /\ 0 < u1 + u2) /\
    (forall a b, 0 < a -> jacobian f g a b (-1)).
Proof. exact quad_value. Qed.
Print Assumptions C54_value.

(** the physical laws in terms of the coefficients *)
Theorem C54_physical : forall u1 u2, physical_law (intensity u1 u2) <-> 0 <= u1 /\ u1 + u2 <= 1 /\ 0 <= u1 + 2 * u2.
Proof. exact law_iff. Qed.
Print Assumptions C54_physical.

Theorem C54_start : forall p name kw ss out v d, quad_limb_dark p name kw = Ok (ss, out) -> requested kw (PNum v) -> ash v = Ok (d ++ [2%nat]) ->
  forall e i u1 u2, at_start p ss e -> aget v (set_ix (length d) 0 i) = Fin u1 -> aget v (set_ix (length d) 1 i) = Fin u2 -> 0 < u1 + u2 ->
    aget (out e) (set_ix (length d) 0 i) = Fin u1 /\ aget (out e) (set_ix (length d) 1 i) = Fin u2.
Proof. exact quad_start. Qed.
Print Assumptions C54_start.

Theorem C54_total : forall p name kw,
  not_requested kw \/ (exists v d m, requested kw (PNum v) /\ ash v = Ok (d ++ [m]) /\ (2 <= m)%nat) ->
  exists ss out, quad_limb_dark p name kw = Ok (ss, out).
Proof. exact quad_total. Qed.
Print Assumptions C54_total.

(** a starting value that is a single number is rejected *)
Theorem C54_error : forall p name kw v, requested kw (PNum v) -> ash v = Ok [] -> quad_limb_dark p name kw = Err IndexErr.
Proof. exact quad_error. Qed.
Print Assumptions C54_error.

Example C54_example : exists ss out e, quad_limb_dark true "u" (ex_kw2 (3 / 10) (2 / 10)) = Ok (ss, out) /\
  requested (ex_kw2 (3 / 10) (2 / 10)) (PNum (ex_pair (3 / 10) (2 / 10))) /\ at_start true ss e /\
  aget (out e) (set_ix 0 0 (fun _ => O)) = Fin (3 / 10) /\ aget (out e) (set_ix 0 1 (fun _ => O)) = Fin (2 / 10).
Proof. exact quad_example. Qed.

(** ** C55: impact_parameter *)
Theorem C55_value : forall p name ror kw ss out, impact_parameter p name ror kw = Ok (ss, out) ->
  exists n kw1 rest, ss = Free [] n "Uniform" kw1 :: rest /\ List.Forall no_variable rest /\ potentials ss = [] /\
    on_interval 0 1 kw1 /\ In (Determ [] name out) rest /\
    forall e i k a, aget ror i = Fin k -> -1 < k -> aget (e n) i = Fin a ->
      exists b, aget (out e) i = Fin b /\ b = a * (1 + k) /\ (0 <= a <= 1 <-> 0 <= b <= 1 + k).
Proof. exact impact_value. Qed.
Print Assumptions C55_value.

Theorem C55_start : forall p name ror kw ss out v, impact_parameter p name ror kw = Ok (ss, out) -> requested kw (PNum v) ->
  forall e i k b, at_start p ss e -> aget ror i = Fin k -> 1 + k <> 0 -> aget v i = Fin b -> aget (out e) i = Fin b.
Proof. exact impact_start. Qed.
Print Assumptions C55_start.

Theorem C55_default : forall p name ror kw ss out, impact_parameter p name ror kw = Ok (ss, out) -> not_requested kw ->
  forall e i k, at_start p ss e -> aget ror i = Fin k -> 1 + k <> 0 -> aget (out e) i = Fin (1 / 2).
Proof. exact impact_start_default. Qed.
Print Assumptions C55_default.

Theorem C55_total : forall p name ror kw s sr, ash ror = Ok sr -> shape_is kw s ->
  not_requested kw \/ (exists v, requested kw (PNum v)) ->
  exists ss out, impact_parameter p name ror kw = Ok (ss, out).
Proof. exact impact_total. Qed.
Print Assumptions C55_total.

(** with PyMC 5 the starting value gets the requested shape, that of ror by
    default; one that does not broadcast to exactly that shape is an error *)
Theorem C55_shape : forall name ror kw ss out v sv sr s, impact_parameter false name ror kw = Ok (ss, out) -> requested kw (PNum v) -> ash v = Ok sv -> ash ror = Ok sr ->
  (dget "shape" kw = None /\ s = sr) \/ dget "shape" kw = Some (PShape s) \/ (exists n, dget "shape" kw = Some (PInt n) /\ s = [n]) ->
  forall sc n c kw', In (Free sc n c kw') ss -> exists start, dget "initval" kw' = Some (PNum start) /\
    (bc sv s = Some s -> ash start = match bc s sr with Some s' => Ok s' | None => Err ShapeErr end) /\ (bc sv s <> Some s -> ash start = Err ShapeErr).
Proof. exact impact_shape. Qed.
Print Assumptions C55_shape.

Example C55_example : exists ss out e, impact_parameter false "b" (alit (Fin (1 / 10))) ex_kw = Ok (ss, out) /\
  requested ex_kw (PNum (alit (Fin 1))) /\ at_start false ss e /\ aget (out e) (fun _ => O) = Fin 1.
Proof. exact impact_example. Qed.

Example C55_shape_example : exists ss out, impact_parameter false "b" (avec [1 / 10; 2 / 10]) [("initval"%string, PNum (avec [1 / 4; 1 / 2]))] = Ok (ss, out) /\
  bc [2%nat] [2%nat] = Some [2%nat] /\ bc [3%nat; 2%nat] [2%nat] <> Some [2%nat].
Proof. eexists _, _. split; [reflexivity|]. split; [reflexivity|]. discriminate. Qed.

(** ** C56: keyword arguments *)
(** every random variable that is declared gets a starting value under the
    keyword of the PyMC version in use and not under the other one; the bounds
    are those of the distribution; all other keywords are the caller's *)
Theorem C56_angle : forall p name reg kw ss out, angle p name reg kw = Ok (ss, out) ->
  forall sc n c kw', In (Free sc n c kw') ss -> exists start, forwarded p [] (PNum start) kw kw'.
Proof. exact angle_keywords. Qed.
Print Assumptions C56_angle.
Theorem C56_unit_disk : forall p nx ny kw ss xy, unit_disk p nx ny kw = Ok (ss, xy) ->
  forall sc n c kw', In (Free sc n c kw') ss -> exists start, forwarded p (between (-1) 1) (PNum start) kw kw'.
Proof. exact disk_keywords. Qed.
Print Assumptions C56_unit_disk.
Theorem C56_quad_limb_dark : forall p name kw ss out, quad_limb_dark p name kw = Ok (ss, out) ->
  forall sc n c kw', In (Free sc n c kw') ss -> exists start, forwarded p (between 0 1) (PNum start) kw kw'.
Proof. exact quad_keywords. Qed.
Print Assumptions C56_quad_limb_dark.
(** impact_parameter also adds a shape if there is none and PyMC is not
    version 3 *)
Theorem C56_impact_parameter : forall p name ror kw ss out, impact_parameter p name ror kw = Ok (ss, out) ->
  forall sc n c kw', In (Free sc n c kw') ss -> exists start, forwarded p (shape_added p ror kw ++ between 0 1) (PNum start) kw kw'.
Proof. exact impact_keywords. Qed.
Print Assumptions C56_impact_parameter.
