(** * Spec_Ops: the library calls on a tau object, as data, for statements about
    arbitrary sequences of calls (C03).  Definitions only. *)
From Coq Require Import List ZArith Bool String.
From Verif Require Import Base Scalar Model_TauRec Model_Checks Model_Select
  Model_Strings Model_Recon.
Import ListNotations.

(** The public functions of include/rss_ringoccs_tau.h and
    include/rss_ringoccs_reconstruction.h that take a tau object and are
    modelled; a [schedule] stands for the OpenMP runtime's choice. *)
Inductive call : Type :=
| CallCheckKeywords | CallCheckGeometry | CallCheckCoreData | CallCheckDataRange
| CallCheckOccType | CallCheckAllan | CallCheckResolution | CallCheckEccentricity
| CallCheckPeriapse | CallCheckRange | CallCheckAzimuth | CallCheckOpening
| CallCheckDistance | CallCheckRadius | CallCheckDisplacement
| CallGetWindowWidth | CallFinish
| CallSetRange (s : option string) | CallSetWindow (s : option string)
| CallSetPsi (s : option string)
| CallFresnel (sch : schedule) | CallNewton (sch : schedule) | CallInterp
| CallLegendre | CallFFT | CallCorrection (sch : schedule)
| CallReconstruction (sch : schedule).

Section Run.
  Context {S : scalar} (L : tmpl S) (X : strlib).
  Definition run_call (c : call) (t : tau S) : res (tau S) :=
    match c with
    | CallCheckKeywords => check_keywords t
    | CallCheckGeometry => check_geometry L t
    | CallCheckCoreData => check_core_data t
    | CallCheckDataRange => check_data_range t
    | CallCheckOccType => check_occ_type L t
    | CallCheckAllan => check_allan_deviation t
    | CallCheckResolution => check_resolution t
    | CallCheckEccentricity => check_eccentricity t
    | CallCheckPeriapse => check_periapse t
    | CallCheckRange => check_range t
    | CallCheckAzimuth => check_azimuth_angle L t
    | CallCheckOpening => check_opening_angle L t
    | CallCheckDistance => check_ring_distance L t
    | CallCheckRadius => check_ring_radius L t
    | CallCheckDisplacement => check_displacement t
    | CallGetWindowWidth => get_window_width L t
    | CallFinish => finish L t
    | CallSetRange s => set_range_from_string L X s t
    | CallSetWindow s => set_window_type L X s t
    | CallSetPsi s => set_psi_type L X s t
    | CallFresnel sch => dc_fresnel L sch t
    | CallNewton sch => dc_newton L sch t
    | CallInterp => dc_interp L t
    | CallLegendre => dc_legendre L t
    | CallFFT => dc_fft L t
    | CallCorrection sch => diffraction_correction L sch t
    | CallReconstruction sch => reconstruction L sch t
    end.
  Fixpoint run_calls (cs : list call) (t : tau S) : res (tau S) :=
    match cs with
    | [] => Ok t
    | c :: r => do t1 <- run_call c t; run_calls r t1
    end.
End Run.
