(** * Model of src/exoplanet/orbits/keplerian.py *)
From Coq Require Import Reals List Bool ZArith.
From Verif Require Import Num M_units.
Import ListNotations.

Definition is_none {A} (x : option A) : bool :=
  match x with None => true | Some _ => false end.
Definition b2n (b : bool) : nat := if b then 1%nat else 0%nat.

Section G.
Context {T B : Type} {N : Num T B}.
Variable k : consts.
Local Open Scope num_scope.

Notation pi := (nlit PI).

(** keplerian.py:822-846, get_aor_from_transit_duration *)
Definition get_aor (duration period b : T) (ror : option T) : T * T :=
  let ror := match ror with Some r => r | None => #0 end in
  let b2 := b ^ 2 in
  let opk2 := (#1 + ror) ^ 2 in
  let phi := pi * duration / period in
  let sinp := nsin phi in
  let cosp := ncos phi in
  let num := nsqrt (opk2 - b2 * cosp ^ 2) in
  let aor := num / sinp in
  let grad := pi * cosp * (b2 - opk2) / (num * period * sinp ^ 2) in
  (aor, grad).

(** keplerian.py:849-934, _get_consistent_inputs.  Result order:
    (a, period, rho_star [g/cm^3], r_star, m_star, m_planet). *)
Definition consistent_inputs (a period rho_star r_star m_star m_planet : option (qty T))
  : res (T * T * T * T * T * T) :=
  if is_none a && is_none period then Err ValueError else       (* 850-853 *)
  mp <- opt_to_unit m_planet (u_M_sun k) ;;                      (* 855-856 *)
  av <- opt_to_unit a (u_R_sun k) ;;                             (* 858-859 *)
  pv <- opt_to_unit period (u_day k) ;;                          (* 862-863 *)
  let mp := match mp, av, pv with                                (* 860-861, 864-865 *)
            | Some m, _, _ => m
            | None, Some x, _ => nzl x
            | None, None, Some p => nzl p
            | None, None, None => #0
            end in
  st <- (match av, pv with
         | Some av, Some pv =>                                   (* 869-889 *)
             if negb (is_none rho_star) || negb (is_none m_star) then Err ValueError
             else
               rs <- (match r_star with
                      | None => Ok (#1)
                      | Some q => to_unit q (u_R_sun k)
                      end) ;;
               let m_tot := #4 * pi * pi * av ^ 3 / (nlit (G_grav k) * pv ^ 2) in
               let ms := m_tot - mp in
               let vol := #4 * pi * rs ^ 3 / #3 in
               let rho := ms / vol in
               Ok (rho, rs, ms)
         | _, _ =>
             (* 892-895 *)
             let both_none := is_none r_star && is_none m_star in
             let r_star' := if both_none then Some (plain (#1)) else r_star in
             let m_star' := if both_none && is_none rho_star
                            then Some (plain (#1)) else m_star in
             (* 896-902 *)
             if negb (Nat.eqb (b2n (is_none rho_star) + b2n (is_none r_star')
                               + b2n (is_none m_star')) 1)
             then Err ValueError
             else
               rho <- (match rho_star with                       (* 904-910 *)
                       | None => Ok None
                       | Some q =>
                           match qu q with
                           | Some _ => rmap Some (to_unit q (u_rho_sun k))
                           | None => Ok (Some (qv q / nlit (gcc_per_sun k)))
                           end
                       end) ;;
               rs <- opt_to_unit r_star' (u_R_sun k) ;;          (* 911-912 *)
               ms <- opt_to_unit m_star' (u_M_sun k) ;;          (* 913-914 *)
               match rho, rs, ms with                            (* 917-922 *)
               | None, Some r, Some m =>
                   Ok (#3 * m / (#4 * pi * r ^ 3), r, m)
               | Some rho, None, Some m =>
                   Ok (rho, npowr (#3 * m / (#4 * pi * rho)) (#(1 / 3)), m)
               | Some rho, Some r, None =>
                   Ok (rho, r, #4 * pi * r ^ 3 * rho / #3)
               | _, _, _ => Err TypeErr  (* excluded by 896-902 *)
               end
         end) ;;
  let '(rho, rs, ms) := st in
  match av, pv with                                              (* 925-934 *)
  | None, Some p =>
      let av := npowr (nlit (G_grav k) * (ms + mp) * p ^ 2 / (#4 * pi ^ 2)) (#(1 / 3)) in
      Ok (av, p, rho * nlit (gcc_per_sun k), rs, ms, mp)
  | Some av, None =>
      let p := #2 * pi * npowr av (#(3 / 2)) / nsqrt (nlit (G_grav k) * (ms + mp)) in
      Ok (av, p, rho * nlit (gcc_per_sun k), rs, ms, mp)
  | Some av, Some p => Ok (av, p, rho * nlit (gcc_per_sun k), rs, ms, mp)
  | None, None => Err ValueError (* excluded by 850-853 *)
  end.

(** Keyword arguments of KeplerianOrbit.__init__, keplerian.py:75-96.
    [ka_m_planet_units] and [ka_rho_star_units] are the two deprecated unit
    keywords, read from **kwargs; other unknown keywords are swallowed
    and never read. *)
Record kargs := {
  ka_period : option (qty T); ka_a : option (qty T);
  ka_t0 : option T; ka_tper : option T;
  ka_incl : option T; ka_b : option T; ka_duration : option (qty T);
  ka_ecc : option T; ka_omega : option T;
  ka_sin_omega : option T; ka_cos_omega : option T;
  ka_Omega : option T;
  ka_m_planet : option (qty T); ka_m_star : option (qty T);
  ka_r_star : option (qty T); ka_rho_star : option (qty T);
  ka_ror : option T;
  ka_m_planet_units : option unit_t; ka_rho_star_units : option unit_t
}.

(** All defaults of the signature (m_planet=0.0, everything else None). *)
Definition no_args : kargs := {|
  ka_period := None; ka_a := None; ka_t0 := None; ka_tper := None;
  ka_incl := None; ka_b := None; ka_duration := None; ka_ecc := None;
  ka_omega := None; ka_sin_omega := None; ka_cos_omega := None; ka_Omega := None;
  ka_m_planet := Some (plain (#0)); ka_m_star := None; ka_r_star := None;
  ka_rho_star := None; ka_ror := None; ka_m_planet_units := None;
  ka_rho_star_units := None |}.

(** Attributes set by __init__. *)
Record eccd := { e_ecc : T; e_omega : T; e_cosw : T; e_sinw : T }.
Record omgd := { O_Omega : T; O_cos : T; O_sin : T }.
Record jacd := { j_a : T; j_a_star : T; j_a_planet : T; j_rho : T }.
Record orbit := {
  o_a : T; o_period : T; o_rho_star : T; o_r_star : T; o_m_star : T;
  o_m_planet : T; o_m_total : T; o_n : T; o_a_star : T; o_a_planet : T;
  o_K0 : T; o_Omega : option omgd; o_ecc : option eccd; o_M0 : T;
  o_dcosidb : T; o_b : T; o_cos_incl : T; o_incl : T; o_sin_incl : T;
  o_t0 : T; o_tper : T; o_tref : T; o_jac : option jacd; o_duration : option T
}.

(** keplerian.py:97-108: the deprecated unit keywords *)
Definition kep_units (x : kargs) : res (option (qty T) * option (qty T)) :=
  mp <- (match ka_m_planet_units x with
         | None => Ok (ka_m_planet x)
         | Some u => match ka_m_planet x with
                     | None => Err TypeErr  (* as_tensor_variable(None) *)
                     | Some q => rmap Some (with_unit q u)
                     end
         end) ;;
  rho <- (match ka_rho_star_units x with
          | None => Ok (ka_rho_star x)
          | Some u => match ka_rho_star x with
                      | None => Err TypeErr  (* as_tensor_variable(None) *)
                      | Some q => rmap Some (with_unit q u)
                      end
          end) ;;
  Ok (mp, rho).

(** keplerian.py:112-131: circular orbit with a duration.  Returns the possibly
    replaced (a, r_star, duration) and daordtau.  Values are used raw: a unit
    tag on duration, period or r_star is not looked at. *)
Definition kep_duration (x : kargs)
  : res (option (qty T) * option (qty T) * option (qty T) * option T) :=
  match ka_ecc x, ka_duration x with
  | None, Some dur =>
      let r_star := match ka_r_star x with None => plain (#1) | Some r => r end in
      match ka_b x with
      | None => Err ValueError
      | Some b =>
          match ka_period x with
          | None => Err TypeErr           (* np.pi * duration / None *)
          | Some p =>
              let '(aor, grad) := get_aor (qv dur) (qv p) b (ka_ror x) in
              Ok (Some (plain (qv r_star * aor)), Some r_star, None, Some grad)
          end
      end
  | _, _ => Ok (ka_a x, ka_r_star x, ka_duration x, None)
  end.

(** keplerian.py:182-203: omega / sin_omega / cos_omega *)
Definition kep_omega (x : kargs) : res (option eccd) :=
  match ka_ecc x with
  | None => Ok None
  | Some e =>
      match ka_omega x with
      | Some w =>
          if negb (is_none (ka_sin_omega x)) && negb (is_none (ka_cos_omega x))
          then Err ValueError
          else Ok (Some {| e_ecc := e; e_omega := w; e_cosw := ncos w; e_sinw := nsin w |})
      | None =>
          match ka_sin_omega x, ka_cos_omega x with
          | Some s, Some c =>
              Ok (Some {| e_ecc := e; e_omega := natan2 s c; e_cosw := c; e_sinw := s |})
          | _, _ => Err ValueError
          end
      end
  end.

(** keplerian.py:205-210 *)
Definition kep_M0 (d : eccd) : T :=
  let opsw := #1 + e_sinw d in
  let E0 := #2 * natan2 (nsqrt (#1 - e_ecc d) * e_cosw d)
                        (nsqrt (#1 + e_ecc d) * opsw) in
  E0 - e_ecc d * nsin E0.

(** keplerian.py:242-260: impact parameter of an eccentric orbit from its
    duration *)
Definition ecc_duration_b (d : eccd) (duration incl_factor period a_planet r_star : T) : T :=
  let c := nsin (pi * duration * incl_factor / period) in
  let c2 := c * c in
  let aor := a_planet / r_star in
  let esinw := e_ecc d * e_sinw d in
  nsqrt ((aor ^ 2 * c2 - #1)
         / (c2 * esinw ^ 2 + #2 * c2 * esinw + c2 - e_ecc d ^ 4 + #2 * e_ecc d ^ 2 - #1))
  * (#1 - e_ecc d ^ 2).

(** keplerian.py:221-265: (b, cos_incl, incl, duration attribute) *)
Definition kep_incl (x : kargs) (dur : option (qty T)) (ed : option eccd)
    (incl_factor dcosidb a period a_planet r_star : T) : res (T * T * T * option T) :=
  match ka_b x with
  | Some b =>
      if negb (is_none (ka_incl x)) || negb (is_none dur) then Err ValueError
      else let ci := dcosidb * b in Ok (b, ci, nacos ci, None)
  | None =>
      match ka_incl x with
      | Some i =>
          if negb (is_none dur) then Err ValueError
          else let ci := ncos i in Ok (ci / dcosidb, ci, i, None)
      | None =>
          match dur with
          | Some q =>
              match ed with
              | None => Err AssertErr   (* 240, unreachable *)
              | Some d =>
                  dv <- to_unit q (u_day k) ;;
                  let b := ecc_duration_b d dv incl_factor period a_planet r_star in
                  let ci := dcosidb * b in
                  Ok (b, ci, nacos ci, Some dv)
              end
          | None =>
              let zla := nzl a in
              Ok (zla, zla, #(0.5) * pi + zla, None)
          end
      end
  end.

(** keplerian.py:267-277: (t0, t_periastron) *)
Definition kep_times (x : kargs) (period M0 n : T) : res (T * T) :=
  match ka_t0 x, ka_tper x with
  | Some _, Some _ => Err ValueError
  | None, None => let t0 := nzl period in Ok (t0, t0 - M0 / n)
  | None, Some tp => Ok (tp + M0 / n, tp)
  | Some t0, None => Ok (t0, t0 - M0 / n)
  end.

(** KeplerianOrbit.__init__, keplerian.py:75-281 (citations: M_cite.v) *)
Definition kep_init (x : kargs) : res orbit :=
  mr <- kep_units x ;;
  let '(m_planet, rho_star) := mr in
  dd <- kep_duration x ;;
  let '(a, r_star, dur, daordtau) := dd in
  ci <- consistent_inputs a (ka_period x) rho_star r_star (ka_m_star x) m_planet ;;
  let '(a, period, rho, r_star, m_star, m_planet) := ci in
  let m_total := m_star + m_planet in                              (* 144 *)
  let n := #2 * pi / period in                                     (* 146 *)
  let a_star := a * m_planet / m_total in                          (* 147 *)
  let a_planet := (- a) * m_star / m_total in                      (* 148 *)
  let jac := match daordtau with                                   (* 151-170 *)
             | None => None
             | Some g =>
                 let dadtau := r_star * g in
                 Some {| j_a := dadtau;
                         j_a_star := dadtau * m_planet / m_total;
                         j_a_planet := (- dadtau) * m_star / m_total;
                         j_rho := #9 * pi * (a / r_star) ^ 2 * g * nlit (gcc_per_sun k)
                                  / (nlit (G_grav k) * period ^ 2) |}
             end in
  let K0 := n * a / m_total in                                     (* 172 *)
  let Om := match ka_Omega x with                                  (* 174-179 *)
            | None => None
            | Some w => Some {| O_Omega := w; O_cos := ncos w; O_sin := nsin w |}
            end in
  ed <- kep_omega x ;;                                             (* 182-203 *)
  let M0 := match ed with                                          (* 184, 205-210 *)
            | None => #(0.5) * pi + nzl n
            | Some d => kep_M0 d
            end in
  let K0 := match ed with                                          (* 212-213 *)
            | None => K0
            | Some d => K0 / nsqrt (#1 - e_ecc d ^ 2)
            end in
  let incl_factor := match ed with                                 (* 185, 214 *)
                     | None => #1
                     | Some d => (#1 + e_ecc d * e_sinw d) / (#1 - e_ecc d ^ 2)
                     end in
  let dcosidb := incl_factor * r_star / a in                       (* 217-219 *)
  bi <- kep_incl x dur ed incl_factor dcosidb a period a_planet r_star ;;
  let '(b, cos_incl, incl, durattr) := bi in
  tt <- kep_times x period M0 n ;;
  let '(t0, tper) := tt in
  Ok {| o_a := a; o_period := period; o_rho_star := rho; o_r_star := r_star;
        o_m_star := m_star; o_m_planet := m_planet; o_m_total := m_total;
        o_n := n; o_a_star := a_star; o_a_planet := a_planet; o_K0 := K0;
        o_Omega := Om; o_ecc := ed; o_M0 := M0; o_dcosidb := dcosidb;
        o_b := b; o_cos_incl := cos_incl; o_incl := incl;
        o_sin_incl := nsin incl;                                   (* 281 *)
        o_t0 := t0; o_tper := tper;
        o_tref := tper - t0;                                       (* 279 *)
        o_jac := jac; o_duration := durattr |}.

(** ** Evaluation *)
Definition vec3 := (T * T * T)%type.
Definition sqz3 (v : vec3) : vec3 := let '(x, y, z) := v in (nsqz x, nsqz y, nsqz z).

(** keplerian.py:283-322 *)
Definition rotate_vector (o : orbit) (x y : T) : vec3 :=
  let '(x1, y1) := match o_ecc o with
                   | None => (x, y)
                   | Some d => (e_cosw d * x - e_sinw d * y, e_sinw d * x + e_cosw d * y)
                   end in
  let x2 := x1 in
  let y2 := o_cos_incl o * y1 in
  let Z := (- o_sin_incl o) * y1 in
  match o_Omega o with
  | None => (x2, y2, Z)
  | Some w => (O_cos w * x2 - O_sin w * y2, O_sin w * x2 + O_cos w * y2, Z)
  end.

(** keplerian.py:324-327.  The methods below take the warp as an argument
    because TTVOrbit overrides it (M_ttv.v). *)
Definition kep_warp (o : orbit) (pad : bool) (t : T) : T :=
  if pad then npadr t - o_t0 o else t - o_t0 o.

Section W.
Variable o : orbit.
Variable warp : bool -> T -> T.

(** keplerian.py:329-334; (sin f, cos f) *)
Definition true_anomaly (pad : bool) (t : T) : T * T :=
  let M := (warp pad t - o_tref o) * o_n o in
  match o_ecc o with
  | None => (nsin M, ncos M)
  | Some d => (nkepler_sin M (e_ecc d + nzl M), nkepler_cos M (e_ecc d + nzl M))
  end.

(** keplerian.py:399-409, the part of _get_position without light delay *)
Definition position_nodelay (a t : T) (parallax : option T) (pad : bool) : vec3 :=
  let '(sinf, cosf) := true_anomaly pad t in
  let r := match o_ecc o with
           | None => a
           | Some d => a * (#1 - e_ecc d ^ 2) / (#1 + e_ecc d * cosf)
           end in
  let r := match parallax with
           | None => r
           | Some p => r * p * nlit (au_per_R_sun k)
           end in
  rotate_vector o (r * cosf) (r * sinf).

(** keplerian.py:427-446: radius, line-of-sight velocity as computed, position
    and line-of-sight acceleration *)
Definition retarded_state (a t : T) (pad : bool) : T * T * T :=
  let '(sinf, cosf) := true_anomaly pad t in
  let angvel := #2 * pi / o_period o in
  let '(r, vz) :=
    match o_ecc o with
    | None => (a, angvel * a * o_sin_incl o * cosf)
    | Some d =>
        let r := a * (#1 - e_ecc d ^ 2) / (#1 + e_ecc d * cosf) in
        let vamp := angvel * a / nsqrt (#1 - e_ecc d ^ 2) in
        let cwf := e_cosw d * cosf - e_sinw d * sinf in
        (r, vamp * o_sin_incl o * (e_ecc d * e_cosw d + cwf))
    end in
  let '(x, y, z) := rotate_vector o (r * cosf) (r * sinf) in
  let az := (- (angvel ^ 2)) * (a / r) ^ 3 * z in
  (vz, z, az).

(** keplerian.py:451-462 *)
Definition light_delay_of (z0 vz z az : T) : T :=
  let c := nlit (c_light k) in
  nsw (nlt (nabs az) (#(1 / 10000000000)))
      ((z0 - z) / (c + vz))
      ((c / az) * ((#1 + vz / c)
                   - nsqrt ((#1 + vz / c) * (#1 + vz / c) - #2 * az * (z0 - z) / c ^ 2))).

(** keplerian.py:411-470 *)
Definition retarded_position (a t : T) (parallax : option T) (z0 : T) (pad : bool) : vec3 :=
  let '(vz, z, az) := retarded_state a t pad in
  let delay := light_delay_of z0 vz z az in
  let new_t := if pad then npadr t - delay else t - delay in
  position_nodelay a new_t parallax false.

(** keplerian.py:380-409; note 397: parallax is not passed on *)
Definition get_position (a t : T) (parallax : option T) (light_delay pad : bool) : vec3 :=
  if light_delay then retarded_position a t None (#0) pad
  else position_nodelay a t parallax pad.

(** keplerian.py:472-542 *)
Definition get_planet_position t parallax light_delay : vec3 :=
  sqz3 (get_position (o_a_planet o) t parallax light_delay true).
Definition get_star_position t parallax light_delay : vec3 :=
  sqz3 (get_position (o_a_star o) t parallax light_delay true).
Definition get_relative_position t parallax light_delay : vec3 :=
  sqz3 (get_position (- o_a o) t parallax light_delay true).

(** keplerian.py:544-570 *)
Definition get_relative_angles t parallax light_delay : T * T :=
  let '(X, Y, _) := get_position (- o_a o) t parallax light_delay true in
  (nsqz (nsqrt (X ^ 2 + Y ^ 2)), nsqz (natan2 Y X)).

(** keplerian.py:572-578 *)
Definition get_velocity (m t : T) : vec3 :=
  let '(sinf, cosf) := true_anomaly true t in
  let K := o_K0 o * m in
  match o_ecc o with
  | None => rotate_vector o ((- K) * sinf) (K * cosf)
  | Some d => rotate_vector o ((- K) * sinf) (K * (cosf + e_ecc d))
  end.

(** keplerian.py:580-631 *)
Definition get_planet_velocity t : vec3 := sqz3 (get_velocity (- o_m_star o) t).
Definition get_star_velocity t : vec3 := sqz3 (get_velocity (o_m_planet o) t).
Definition get_relative_velocity t : vec3 := sqz3 (get_velocity (- o_m_total o) t).

(** keplerian.py:633-677 *)
Definition get_radial_velocity (t : T) (K : option T) (output_units : option unit_t) : res T :=
  match K with
  | Some K =>
      let '(sinf, cosf) := true_anomaly true t in
      Ok (match o_ecc o with
          | None => nsqz (K * cosf)
          | Some d => nsqz (K * (e_cosw d * cosf - e_sinw d * sinf + e_ecc d * e_cosw d))
          end)
  | None =>
      let out := match output_units with None => u_mps k | Some u => u end in
      conv <- uto (u_Rsun_per_day k) out ;;
      let '(_, _, vz) := get_star_velocity t in
      Ok (nlit (- conv) * vz)
  end.

(** keplerian.py:679-688 *)
Definition get_acceleration (a m t : T) : vec3 :=
  let '(sinf, cosf) := true_anomaly true t in
  let K := o_K0 o * m in
  let factor := match o_ecc o with
                | None => (- (K ^ 2)) / a
                | Some d => K ^ 2 * (e_ecc d * cosf + #1) ^ 2 / (a * (e_ecc d ^ 2 - #1))
                end in
  rotate_vector o (factor * cosf) (factor * sinf).

(** keplerian.py:690-706 *)
Definition get_planet_acceleration t : vec3 :=
  sqz3 (get_acceleration (o_a_planet o) (- o_m_star o) t).
Definition get_star_acceleration t : vec3 :=
  sqz3 (get_acceleration (o_a_star o) (o_m_planet o) t).
Definition get_relative_acceleration t : vec3 :=
  sqz3 (get_acceleration (- o_a o) (- o_m_total o) t).

(** ** in_transit, elementwise part: keplerian.py:725-769 *)

(** 730-731: time since the nearest transit *)
Definition since_transit (t : T) : T :=
  let hp := #(0.5) * o_period o in
  nmod (warp true t + hp) (o_period o) - hp.

(** ops.contact_points is external: (a, e, cosw, sinw, cosi, sini, L) to the
    mean anomalies of ingress and egress and an error flag *)
Variable contact_points : T -> T -> T -> T -> T -> T -> T -> T * T * T.

(** 725-763: start and end of the transit relative to mid-transit, and flag *)
Definition transit_window (r : T) : T * T * T :=
  let z := nzl (o_a o) in
  let r := r + z in
  let R := o_r_star o + z in
  let hp := #(0.5) * o_period o in
  match o_ecc o with
  | None =>
      let kk := r / R in
      let arg := (#1 + kk) ^ 2 - o_b o ^ 2 in
      let factor := R / (o_a o * o_sin_incl o) in
      let hdur := hp * nasin (factor * nsqrt arg) / pi in
      (- hdur, hdur, z)
  | Some d =>
      let '(M1, M2, flag) :=
        contact_points (o_a o) (e_ecc d) (e_cosw d) (e_sinw d)
                       (o_cos_incl o + z) (o_sin_incl o + z) (R + r) in
      let ts := (M1 - o_M0 o) / o_n o in
      let ts := nmod (ts + hp) (o_period o) - hp in
      let te := (M2 - o_M0 o) / o_n o in
      let te := nmod (te + hp) (o_period o) - hp in
      let ts := nsw (nlt (#0) ts) (ts - o_period o) ts in
      let te := nsw (nlt te (#0)) (te + o_period o) te in
      (ts, te, flag)
  end.

(** 765-769 before the reduction over planets: is this (time, planet) pair in
    transit?  Also returns the flag. *)
Definition transit_mask (t r : T) (texp : option T) : B * T :=
  let '(ts, te, flag) := transit_window r in
  let ts := match texp with None => ts | Some e => ts - #(0.5) * e end in
  let te := match texp with None => te | Some e => te + #(0.5) * e end in
  let dt := since_transit t in
  (nband (nle ts dt) (nle dt te), flag).
End W.

(** keplerian.py:779-804, the arguments passed to the constructor *)
Definition flip_args (o : orbit) (r_planet : T) : kargs :=
  match o_ecc o with
  | None =>
      {| ka_period := Some (plain (o_period o)); ka_a := None; ka_t0 := None;
         ka_tper := Some (o_tper o + #(0.5) * o_period o);
         ka_incl := Some (o_incl o); ka_b := None; ka_duration := None;
         ka_ecc := None; ka_omega := None; ka_sin_omega := None; ka_cos_omega := None;
         ka_Omega := option_map O_Omega (o_Omega o);
         ka_m_planet := Some (plain (o_m_star o));
         ka_m_star := Some (plain (o_m_planet o));
         ka_r_star := Some (plain r_planet); ka_rho_star := None; ka_ror := None;
         ka_m_planet_units := None; ka_rho_star_units := None |}
  | Some d =>
      {| ka_period := Some (plain (o_period o)); ka_a := None; ka_t0 := None;
         ka_tper := Some (o_tper o);
         ka_incl := Some (o_incl o); ka_b := None; ka_duration := None;
         ka_ecc := Some (e_ecc d); ka_omega := Some (e_omega d - pi);
         ka_sin_omega := None; ka_cos_omega := None;
         ka_Omega := option_map O_Omega (o_Omega o);
         ka_m_planet := Some (plain (o_m_star o));
         ka_m_star := Some (plain (o_m_planet o));
         ka_r_star := Some (plain r_planet); ka_rho_star := None; ka_ror := None;
         ka_m_planet_units := None; ka_rho_star_units := None |}
  end.
Definition flip (o : orbit) (r_planet : T) : res orbit := kep_init (flip_args o r_planet).

(** keplerian.py:807-819 *)
Definition get_true_anomaly (M e : T) : T := natan2 (nkepler_sin M e) (nkepler_cos M e).

End G.

Arguments kargs T : clear implicits.
Arguments orbit T : clear implicits.
Arguments eccd T : clear implicits.
Arguments omgd T : clear implicits.
Arguments jacd T : clear implicits.
