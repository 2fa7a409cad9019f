(** * Proof_Sticky: an object with the error flag set is never changed (C03). *)
From Coq Require Import List ZArith Bool String.
From Verif Require Import Base BaseFacts Scalar Model_TauRec Model_Checks Model_Select
  Model_Strings Model_Recon Spec_Ops.
Import ListNotations.

Section Sticky.
  Context {S : scalar} (L : tmpl S) (X : strlib).

  Lemma guarded_some (t : tau S) m k : err t = Some m -> guarded t k = Ok t.
  Proof. unfold guarded; intros ->; auto. Qed.

  Lemma run_call_sticky c (t : tau S) m :
    err t = Some m -> run_call L X c t = Ok t.
  Proof.
    intros H.
    destruct c; cbn [run_call];
      unfold check_keywords, check_geometry, check_core_data, check_data_range,
        check_occ_type, check_allan_deviation, check_resolution, check_eccentricity,
        check_periapse, check_range, check_azimuth_angle, check_opening_angle,
        check_ring_distance, check_ring_radius, check_displacement, get_window_width,
        finish, set_range_from_string, set_window_type, set_psi_type,
        dc_fresnel, dc_newton, dc_interp, dc_legendre, dc_fft, diffraction_correction,
        reconstruction, check_keywords, check_core_data, check_data_range,
        check_occ_type, get_window_width, dc_legendre;
      repeat (rewrite (guarded_some t m) by exact H; cbn [bind]); reflexivity.
  Qed.
  Lemma run_calls_sticky cs (t : tau S) m :
    err t = Some m -> run_calls L X cs t = Ok t.
  Proof.
    induction cs as [|c cs IH]; intros H; cbn [run_calls]; auto.
    rewrite (run_call_sticky c t m H). cbn [bind]. auto.
  Qed.
End Sticky.
