(** GENERATED by tools/gen_schema.py from the text of /repo -- do not edit.

    One table per Cache-derived class: for every parameter its alias default, for every
    cached attribute its declared parents (decorator arguments) and the attributes its
    body may read.  The reads are a syntactic over-approximation: every [self.X] in the
    body, followed through plain methods and properties, decorators, helper functions
    receiving the object, and the memoised power terms ([self.m.X] in power/dm and
    power/biased).  Sub-models that the parameter setters keep current in place
    ([_update_models], power_dm.py) are treated as reading those parameters at the point
    of use; [hzpt.P00]/[hzpt.Phm] use sigma8_z and interpolate, [hzpt.P01]/[hzpt.P11] also f.
    Instance attributes outside the cache machinery (e.g. [_loaded_data], [grid], [data],
    [model]) are not tracked; [nonlinear_bias_types] mapping a bias to an arbitrary other
    term is not tracked (only the 'vlah' link to the [_a] term is). *)
From Coq Require Import List String.
Import ListNotations.
Open Scope string_scope.

Inductive entry :=
| EParam (alias : option string)
| EProp (interp : bool) (parents reads : list string).
Definition table := list (string * entry).

(** class DarkMatterSpectrum; MRO: DarkMatterSpectrum Cache SimLoaderMixin PTIntegralsMixin *)
Definition tbl_DarkMatterSpectrum : table := [
  (* pyRSD/rsd/power/dm/power_dm.py:541 *) ("D", EProp false ["z"; "cosmo"]
      ["cosmo"; "z"]);
  (* pyRSD/rsd/power/dm/power_dm.py:400 *) ("Nk", EParam None);
  (* pyRSD/rsd/power/dm/power_dm.py:887 *) ("P00", EProp false ["z"; "sigma8_z"; "use_P00_model"; "power_lin"; "P00_mu0_loaded"]
      ["P00_mu0_loaded"; "_power_norm"; "_unnormalized_I00"; "_unnormalized_J00"; "hzpt"; "interpolate"; "power_lin"; "sigma8_z"; "use_P00_model"]);
  (* pyRSD/rsd/sim_loader.py:27 *) ("P00_mu0_loaded", EParam None);
  (* pyRSD/rsd/power/dm/power_dm.py:897 *) ("P01", EProp false ["f"; "z"; "sigma8_z"; "use_P01_model"; "power_lin"; "max_mu"; "P01_mu2_loaded"]
      ["P01_mu2_loaded"; "_power_norm"; "_unnormalized_I00"; "_unnormalized_J00"; "f"; "hzpt"; "interpolate"; "power_lin"; "sigma8_z"; "use_P01_model"]);
  (* pyRSD/rsd/sim_loader.py:31 *) ("P01_mu2_loaded", EParam None);
  (* pyRSD/rsd/power/dm/power_dm.py:919 *) ("P02", EProp false ["f"; "z"; "sigma8_z"; "power_lin"; "max_mu"; "include_2loop"; "sigma_v"; "sigma_bv2"; "P00"]
      ["P00"; "_power_norm"; "_unnormalized_I02"; "_unnormalized_I20"; "_unnormalized_J02"; "_unnormalized_J20"; "conformalH"; "cosmo"; "f"; "include_2loop"; "power_lin"; "sigma_bv2"; "sigma_v"]);
  (* pyRSD/rsd/power/dm/power_dm.py:953 *) ("P03", EProp false ["f"; "z"; "sigma8_z"; "power_lin"; "max_mu"; "include_2loop"; "sigma_v"; "sigma_v2"; "P01"]
      ["P01"; "_power_norm"; "conformalH"; "cosmo"; "f"; "include_2loop"; "power_lin"; "sigma_v"; "sigma_v2"]);
  (* pyRSD/rsd/power/dm/power_dm.py:974 *) ("P04", EProp false ["f"; "z"; "sigma8_z"; "power_lin"; "max_mu"; "include_2loop"; "sigma_v"; "sigma_bv4"; "P02"; "P00"]
      ["P00"; "P02"; "conformalH"; "cosmo"; "f"; "include_2loop"; "sigma_bv4"; "sigma_v"; "velocity_kurtosis"]);
  (* pyRSD/rsd/power/dm/power_dm.py:907 *) ("P11", EProp false ["f"; "z"; "sigma8_z"; "use_P11_model"; "power_lin"; "max_mu"; "include_2loop"; "P11_mu2_loaded"; "P11_mu4_loaded"]
      ["P11_mu2_loaded"; "P11_mu4_loaded"; "_power_norm"; "_unnormalized_I11"; "_unnormalized_I13"; "_unnormalized_I22"; "_unnormalized_I31"; "_unnormalized_Idvdv_h03"; "_unnormalized_Idvdv_h04"; "_unnormalized_Ivvdd_h01"; "_unnormalized_Ivvdd_h02"; "_unnormalized_J10"; "_unnormalized_J11"; "f"; "hzpt"; "include_2loop"; "interpolate"; "power_lin"; "sigma8_z"; "use_P11_model"]);
  (* pyRSD/rsd/sim_loader.py:35 *) ("P11_mu2_loaded", EParam None);
  (* pyRSD/rsd/sim_loader.py:39 *) ("P11_mu4_loaded", EParam None);
  (* pyRSD/rsd/power/dm/power_dm.py:661 *) ("P11_sim_model", EProp false ["power_lin"]
      ["power_lin"]);
  (* pyRSD/rsd/power/dm/power_dm.py:930 *) ("P12", EProp false ["f"; "z"; "sigma8_z"; "power_lin"; "max_mu"; "include_2loop"; "sigma_v"; "sigma_bv2"; "P01"]
      ["P01"; "_power_norm"; "_unnormalized_I03"; "_unnormalized_I12"; "_unnormalized_I21"; "_unnormalized_I30"; "_unnormalized_J02"; "_unnormalized_J20"; "conformalH"; "cosmo"; "f"; "include_2loop"; "power_lin"; "sigma_bv2"; "sigma_v"]);
  (* pyRSD/rsd/power/dm/power_dm.py:963 *) ("P13", EProp false ["f"; "z"; "sigma8_z"; "power_lin"; "max_mu"; "include_2loop"; "sigma_v"; "sigma_bv2"; "sigma_v2"; "P11"]
      ["P11"; "conformalH"; "cosmo"; "f"; "include_2loop"; "sigma_bv2"; "sigma_v"; "sigma_v2"]);
  (* pyRSD/rsd/power/dm/power_dm.py:942 *) ("P22", EProp false ["f"; "z"; "sigma8_z"; "power_lin"; "max_mu"; "include_2loop"; "sigma_v"; "sigma_bv2"; "P00"; "P02"]
      ["P00"; "P02"; "_power_norm"; "_unnormalized_I23"; "_unnormalized_I32"; "_unnormalized_Ivvvv_f23"; "_unnormalized_Ivvvv_f32"; "_unnormalized_J02"; "_unnormalized_J20"; "_unnormalized_sigmasq_k"; "conformalH"; "cosmo"; "f"; "include_2loop"; "power_lin"; "sigma_bv2"; "sigma_v"]);
  (* pyRSD/rsd/power/dm/power_dm.py:812 *) ("P_mu0", EProp true ["P00"; "k"]
      ["P00"; "k"]);
  (* pyRSD/rsd/power/dm/power_dm.py:820 *) ("P_mu2", EProp true ["P01"; "P11"; "P02"; "k"]
      ["P01"; "P02"; "P11"; "k"]);
  (* pyRSD/rsd/power/dm/power_dm.py:829 *) ("P_mu4", EProp true ["P11"; "P02"; "P12"; "P22"; "P03"; "P13"; "P04"; "include_2loop"; "k"]
      ["P02"; "P03"; "P04"; "P11"; "P12"; "P13"; "P22"; "include_2loop"; "k"]);
  (* pyRSD/rsd/power/dm/power_dm.py:839 *) ("P_mu6", EProp true ["P12"; "P22"; "P13"; "P04"; "include_2loop"; "k"]
      ["P04"; "P12"; "P13"; "P22"; "include_2loop"; "k"]);
  (* pyRSD/rsd/power/dm/power_dm.py:849 *) ("Pdd", EProp true ["z"; "_power_norm"; "k"]
      ["_Pdd_0"; "_power_norm"; "k"; "power_lin"]);
  (* pyRSD/rsd/power/dm/power_dm.py:857 *) ("Pdv", EProp true ["f"; "z"; "_power_norm"; "use_Pdv_model"; "Pdv_model_type"; "Pdv_loaded"; "k"]
      ["D"; "Pdv_loaded"; "Pdv_model_type"; "Pdv_sim_model"; "_Pdv_0"; "_power_norm"; "f"; "hzpt"; "interpolate"; "k"; "power_lin"; "sigma8_z"; "use_Pdv_model"; "z"]);
  (* pyRSD/rsd/sim_loader.py:23 *) ("Pdv_loaded", EParam None);
  (* pyRSD/rsd/power/dm/power_dm.py:634 *) ("Pdv_model_type", EParam None);
  (* pyRSD/rsd/power/dm/power_dm.py:669 *) ("Pdv_sim_model", EProp false ["power_lin"]
      ["power_lin"]);
  (* pyRSD/rsd/power/dm/power_dm.py:876 *) ("Pvv", EProp true ["f"; "z"; "_power_norm"; "use_Pvv_model"; "k"]
      ["D"; "_Pvv_0"; "_power_norm"; "f"; "hzpt"; "interpolate"; "k"; "power_lin"; "sigma8_z"; "use_Pvv_model"]);
  (* pyRSD/rsd/pt_integrals.py:94 *) ("_Imn", EProp false ["power_lin"]
      ["power_lin"]);
  (* pyRSD/rsd/pt_integrals.py:115 *) ("_Imn1Loop_dvdv", EProp false ["_Pdv_0"]
      ["_Pdv_0"]);
  (* pyRSD/rsd/pt_integrals.py:123 *) ("_Imn1Loop_vvdd", EProp false ["_Pvv_0"; "_Pdd_0"]
      ["_Pdd_0"; "_Pvv_0"]);
  (* pyRSD/rsd/pt_integrals.py:131 *) ("_Imn1Loop_vvvv", EProp false ["_Pvv_0"]
      ["_Pvv_0"]);
  (* pyRSD/rsd/pt_integrals.py:101 *) ("_Jmn", EProp false ["power_lin"]
      ["power_lin"]);
  (* pyRSD/rsd/pt_integrals.py:108 *) ("_Kmn", EProp false ["power_lin"]
      ["power_lin"]);
  (* pyRSD/rsd/pt_integrals.py:84 *) ("_P22bar_0", EProp false ["power_lin"]
      ["power_lin"]);
  (* pyRSD/rsd/pt_integrals.py:63 *) ("_Pdd_0", EProp false ["power_lin"]
      ["power_lin"]);
  (* pyRSD/rsd/pt_integrals.py:70 *) ("_Pdv_0", EProp false ["power_lin"]
      ["power_lin"]);
  (* pyRSD/rsd/pt_integrals.py:77 *) ("_Pvv_0", EProp false ["power_lin"]
      ["power_lin"]);
  (* pyRSD/rsd/power/dm/power_dm.py:571 *) ("_power_norm", EProp false ["sigma8_z"; "cosmo"]
      ["cosmo"; "sigma8_z"]);
  (* pyRSD/rsd/power/dm/power_dm.py:588 *) ("_sigma_lin_unnormed", EProp false ["power_lin"]
      ["power_lin"]);
  (* pyRSD/rsd/pt_integrals.py:181 *) ("_unnormalized_I00", EProp true ["_Imn"]
      ["_Imn"]);
  (* pyRSD/rsd/pt_integrals.py:187 *) ("_unnormalized_I01", EProp true ["_Imn"]
      ["_Imn"]);
  (* pyRSD/rsd/pt_integrals.py:193 *) ("_unnormalized_I02", EProp true ["_Imn"]
      ["_Imn"]);
  (* pyRSD/rsd/pt_integrals.py:199 *) ("_unnormalized_I03", EProp true ["_Imn"]
      ["_Imn"]);
  (* pyRSD/rsd/pt_integrals.py:205 *) ("_unnormalized_I10", EProp true ["_Imn"]
      ["_Imn"]);
  (* pyRSD/rsd/pt_integrals.py:211 *) ("_unnormalized_I11", EProp true ["_Imn"]
      ["_Imn"]);
  (* pyRSD/rsd/pt_integrals.py:217 *) ("_unnormalized_I12", EProp true ["_Imn"]
      ["_Imn"]);
  (* pyRSD/rsd/pt_integrals.py:223 *) ("_unnormalized_I13", EProp true ["_Imn"]
      ["_Imn"]);
  (* pyRSD/rsd/pt_integrals.py:229 *) ("_unnormalized_I20", EProp true ["_Imn"]
      ["_Imn"]);
  (* pyRSD/rsd/pt_integrals.py:235 *) ("_unnormalized_I21", EProp true ["_Imn"]
      ["_Imn"]);
  (* pyRSD/rsd/pt_integrals.py:241 *) ("_unnormalized_I22", EProp true ["_Imn"]
      ["_Imn"]);
  (* pyRSD/rsd/pt_integrals.py:247 *) ("_unnormalized_I23", EProp true ["_Imn"]
      ["_Imn"]);
  (* pyRSD/rsd/pt_integrals.py:253 *) ("_unnormalized_I30", EProp true ["_Imn"]
      ["_Imn"]);
  (* pyRSD/rsd/pt_integrals.py:259 *) ("_unnormalized_I31", EProp true ["_Imn"]
      ["_Imn"]);
  (* pyRSD/rsd/pt_integrals.py:265 *) ("_unnormalized_I32", EProp true ["_Imn"]
      ["_Imn"]);
  (* pyRSD/rsd/pt_integrals.py:271 *) ("_unnormalized_I33", EProp true ["_Imn"]
      ["_Imn"]);
  (* pyRSD/rsd/pt_integrals.py:380 *) ("_unnormalized_Idvdv_h03", EProp true ["_Imn1Loop_dvdv"]
      ["_Imn1Loop_dvdv"]);
  (* pyRSD/rsd/pt_integrals.py:389 *) ("_unnormalized_Idvdv_h04", EProp true ["_Imn1Loop_dvdv"]
      ["_Imn1Loop_dvdv"]);
  (* pyRSD/rsd/pt_integrals.py:362 *) ("_unnormalized_Ivvdd_h01", EProp true ["_Imn1Loop_vvdd"]
      ["_Imn1Loop_vvdd"]);
  (* pyRSD/rsd/pt_integrals.py:371 *) ("_unnormalized_Ivvdd_h02", EProp true ["_Imn1Loop_vvdd"]
      ["_Imn1Loop_vvdd"]);
  (* pyRSD/rsd/pt_integrals.py:398 *) ("_unnormalized_Ivvvv_f23", EProp true ["_Imn1Loop_vvvv"]
      ["_Imn1Loop_vvvv"]);
  (* pyRSD/rsd/pt_integrals.py:407 *) ("_unnormalized_Ivvvv_f32", EProp true ["_Imn1Loop_vvvv"]
      ["_Imn1Loop_vvvv"]);
  (* pyRSD/rsd/pt_integrals.py:416 *) ("_unnormalized_Ivvvv_f33", EProp true ["_Imn1Loop_vvvv"]
      ["_Imn1Loop_vvvv"]);
  (* pyRSD/rsd/pt_integrals.py:142 *) ("_unnormalized_J00", EProp true ["_Jmn"]
      ["_Jmn"]);
  (* pyRSD/rsd/pt_integrals.py:148 *) ("_unnormalized_J01", EProp true ["_Jmn"]
      ["_Jmn"]);
  (* pyRSD/rsd/pt_integrals.py:166 *) ("_unnormalized_J02", EProp true ["_Jmn"]
      ["_Jmn"]);
  (* pyRSD/rsd/pt_integrals.py:154 *) ("_unnormalized_J10", EProp true ["_Jmn"]
      ["_Jmn"]);
  (* pyRSD/rsd/pt_integrals.py:160 *) ("_unnormalized_J11", EProp true ["_Jmn"]
      ["_Jmn"]);
  (* pyRSD/rsd/pt_integrals.py:172 *) ("_unnormalized_J20", EProp true ["_Jmn"]
      ["_Jmn"]);
  (* pyRSD/rsd/pt_integrals.py:280 *) ("_unnormalized_K00", EProp true ["_Kmn"]
      ["_Kmn"]);
  (* pyRSD/rsd/pt_integrals.py:286 *) ("_unnormalized_K00s", EProp true ["_Kmn"]
      ["_Kmn"]);
  (* pyRSD/rsd/pt_integrals.py:292 *) ("_unnormalized_K01", EProp true ["_Kmn"]
      ["_Kmn"]);
  (* pyRSD/rsd/pt_integrals.py:298 *) ("_unnormalized_K01s", EProp true ["_Kmn"]
      ["_Kmn"]);
  (* pyRSD/rsd/pt_integrals.py:304 *) ("_unnormalized_K02s", EProp true ["_Kmn"]
      ["_Kmn"]);
  (* pyRSD/rsd/pt_integrals.py:310 *) ("_unnormalized_K10", EProp true ["_Kmn"]
      ["_Kmn"]);
  (* pyRSD/rsd/pt_integrals.py:317 *) ("_unnormalized_K10s", EProp true ["_Kmn"]
      ["_Kmn"]);
  (* pyRSD/rsd/pt_integrals.py:323 *) ("_unnormalized_K11", EProp true ["_Kmn"]
      ["_Kmn"]);
  (* pyRSD/rsd/pt_integrals.py:329 *) ("_unnormalized_K11s", EProp true ["_Kmn"]
      ["_Kmn"]);
  (* pyRSD/rsd/pt_integrals.py:335 *) ("_unnormalized_K20_a", EProp true ["_Kmn"]
      ["_Kmn"]);
  (* pyRSD/rsd/pt_integrals.py:341 *) ("_unnormalized_K20_b", EProp true ["_Kmn"]
      ["_Kmn"]);
  (* pyRSD/rsd/pt_integrals.py:347 *) ("_unnormalized_K20s_a", EProp true ["_Kmn"]
      ["_Kmn"]);
  (* pyRSD/rsd/pt_integrals.py:353 *) ("_unnormalized_K20s_b", EProp true ["_Kmn"]
      ["_Kmn"]);
  (* pyRSD/rsd/pt_integrals.py:443 *) ("_unnormalized_sigmasq_k", EProp true ["power_lin"]
      ["power_lin"]);
  (* pyRSD/rsd/pt_integrals.py:428 *) ("_unnormed_velocity_kurtosis", EProp false ["_P22bar_0"]
      ["_P22bar_0"]);
  (* pyRSD/rsd/power/dm/power_dm.py:447 *) ("alpha_drag", EParam None);
  (* pyRSD/rsd/power/dm/power_dm.py:439 *) ("alpha_par", EParam None);
  (* pyRSD/rsd/power/dm/power_dm.py:431 *) ("alpha_perp", EParam None);
  (* pyRSD/rsd/power/dm/power_dm.py:548 *) ("conformalH", EProp false ["z"; "cosmo"]
      ["cosmo"; "z"]);
  (* pyRSD/rsd/power/dm/power_dm.py:510 *) ("cosmo", EProp false ["params"; "transfer_fit"; "linear_power_file"]
      ["linear_power_file"; "params"; "transfer_fit_int"]);
  (* pyRSD/rsd/power/dm/power_dm.py:299 *) ("cosmo_filename", EParam None);
  (* pyRSD/rsd/power/dm/power_dm.py:420 *) ("f", EParam None);
  (* pyRSD/rsd/power/dm/power_dm.py:496 *) ("fiducial_rs_drag", EProp false ["cosmo"]
      ["cosmo"]);
  (* pyRSD/rsd/power/dm/power_dm.py:653 *) ("hzpt", EProp false ["cosmo"]
      ["cosmo"]);
  (* pyRSD/rsd/power/dm/power_dm.py:348 *) ("include_2loop", EParam None);
  (* pyRSD/rsd/power/dm/power_dm.py:281 *) ("interpolate", EParam None);
  (* pyRSD/rsd/power/dm/power_dm.py:527 *) ("k", EProp false ["Nk"; "kmin"; "kmax"]
      ["Nk"; "kmax"; "kmin"]);
  (* pyRSD/rsd/power/dm/power_dm.py:373 *) ("k0_low", EParam None);
  (* pyRSD/rsd/power/dm/power_dm.py:391 *) ("kmax", EParam None);
  (* pyRSD/rsd/power/dm/power_dm.py:382 *) ("kmin", EParam None);
  (* pyRSD/rsd/power/dm/power_dm.py:330 *) ("linear_power_file", EParam None);
  (* pyRSD/rsd/power/dm/power_dm.py:337 *) ("max_mu", EParam None);
  (* pyRSD/rsd/power/dm/power_dm.py:307 *) ("params", EParam None);
  (* pyRSD/rsd/power/dm/power_dm.py:555 *) ("power_lin", EProp false ["cosmo"]
      ["cosmo"]);
  (* pyRSD/rsd/power/dm/power_dm.py:562 *) ("power_lin_nw", EProp false ["cosmo"]
      ["cosmo"]);
  (* pyRSD/rsd/power/dm/power_dm.py:644 *) ("redshift_params", EParam None);
  (* pyRSD/rsd/power/dm/power_dm.py:407 *) ("sigma8_z", EParam None);
  (* pyRSD/rsd/power/dm/power_dm.py:473 *) ("sigma_bv2", EParam None);
  (* pyRSD/rsd/power/dm/power_dm.py:483 *) ("sigma_bv4", EParam None);
  (* pyRSD/rsd/power/dm/power_dm.py:580 *) ("sigma_lin", EProp false ["_power_norm"; "_sigma_lin_unnormed"]
      ["_power_norm"; "_sigma_lin_unnormed"]);
  (* pyRSD/rsd/power/dm/power_dm.py:455 *) ("sigma_v", EParam (Some "sigma_lin"));
  (* pyRSD/rsd/power/dm/power_dm.py:463 *) ("sigma_v2", EParam None);
  (* pyRSD/rsd/power/dm/power_dm.py:289 *) ("transfer_fit", EParam None);
  (* pyRSD/rsd/power/dm/power_dm.py:503 *) ("transfer_fit_int", EProp false ["transfer_fit"]
      ["transfer_fit"]);
  (* pyRSD/rsd/power/dm/power_dm.py:599 *) ("use_P00_model", EParam None);
  (* pyRSD/rsd/power/dm/power_dm.py:606 *) ("use_P01_model", EParam None);
  (* pyRSD/rsd/power/dm/power_dm.py:613 *) ("use_P11_model", EParam None);
  (* pyRSD/rsd/power/dm/power_dm.py:620 *) ("use_Pdv_model", EParam None);
  (* pyRSD/rsd/power/dm/power_dm.py:627 *) ("use_Pvv_model", EParam None);
  (* pyRSD/rsd/pt_integrals.py:435 *) ("velocity_kurtosis", EProp false ["_unnormed_velocity_kurtosis"; "_power_norm"]
      ["_power_norm"; "_unnormed_velocity_kurtosis"]);
  (* pyRSD/rsd/power/dm/power_dm.py:355 *) ("z", EParam None)
].
(** parameters some cached attribute of the class depends on without declaring it *)
Definition gaps_DarkMatterSpectrum : list string := ["interpolate"].

(** class HaloSpectrum; MRO: HaloSpectrum BiasedSpectrum DarkMatterSpectrum Cache SimLoaderMixin PTIntegralsMixin NonlinearBiasingMixin *)
Definition tbl_HaloSpectrum : table := [
  (* pyRSD/rsd/power/dm/power_dm.py:541 *) ("D", EProp false ["z"; "cosmo"]
      ["cosmo"; "z"]);
  (* pyRSD/rsd/power/dm/power_dm.py:400 *) ("Nk", EParam None);
  (* pyRSD/rsd/power/dm/power_dm.py:887 *) ("P00", EProp false ["z"; "sigma8_z"; "use_P00_model"; "power_lin"; "P00_mu0_loaded"]
      ["P00_mu0_loaded"; "_power_norm"; "_unnormalized_I00"; "_unnormalized_J00"; "hzpt"; "interpolate"; "power_lin"; "sigma8_z"; "use_P00_model"]);
  (* pyRSD/rsd/sim_loader.py:27 *) ("P00_mu0_loaded", EParam None);
  (* pyRSD/rsd/power/biased/power_biased.py:369 *) ("P00_ss", EProp false ["P00_ss_no_stoch"; "stochasticity"]
      ["P00_ss_no_stoch"; "stochasticity"]);
  (* pyRSD/rsd/power/biased/power_biased.py:378 *) ("P00_ss_no_stoch", EProp false ["P00"; "Phm"; "Phm_bar"]
      ["P00"; "Phm"; "Phm_bar"]);
  (* pyRSD/rsd/power/dm/power_dm.py:897 *) ("P01", EProp false ["f"; "z"; "sigma8_z"; "use_P01_model"; "power_lin"; "max_mu"; "P01_mu2_loaded"]
      ["P01_mu2_loaded"; "_power_norm"; "_unnormalized_I00"; "_unnormalized_J00"; "f"; "hzpt"; "interpolate"; "power_lin"; "sigma8_z"; "use_P01_model"]);
  (* pyRSD/rsd/sim_loader.py:31 *) ("P01_mu2_loaded", EParam None);
  (* pyRSD/rsd/power/biased/power_biased.py:386 *) ("P01_ss", EProp false ["_ib1"; "_ib1_bar"; "max_mu"; "Pdv"; "P01"; "b2_01_a"]
      ["P01"; "Pdv"; "_ib1"; "_ib1_bar"; "_unnormalized_K10"; "_unnormalized_K10s"; "_unnormalized_K11"; "_unnormalized_K11s"; "b2_01_a"; "bs"; "bs_bar"; "f"]);
  (* pyRSD/rsd/power/dm/power_dm.py:919 *) ("P02", EProp false ["f"; "z"; "sigma8_z"; "power_lin"; "max_mu"; "include_2loop"; "sigma_v"; "sigma_bv2"; "P00"]
      ["P00"; "_power_norm"; "_unnormalized_I02"; "_unnormalized_I20"; "_unnormalized_J02"; "_unnormalized_J20"; "conformalH"; "cosmo"; "f"; "include_2loop"; "power_lin"; "sigma_bv2"; "sigma_v"]);
  (* pyRSD/rsd/power/biased/power_biased.py:396 *) ("P02_ss", EProp false ["_ib1"; "_ib1_bar"; "max_mu"; "P02"; "P00"; "sigmav_halo"; "sigmav_halo_bar"; "b2_00_b"; "b2_00_c"]
      ["P00"; "P02"; "_ib1"; "_ib1_bar"; "_unnormalized_K00"; "_unnormalized_K00s"; "_unnormalized_K20_a"; "_unnormalized_K20_b"; "_unnormalized_K20s_a"; "_unnormalized_K20s_b"; "b2_00_b"; "b2_00_c"; "bs"; "bs_bar"; "f"; "sigmav_halo"; "sigmav_halo_bar"]);
  (* pyRSD/rsd/power/dm/power_dm.py:953 *) ("P03", EProp false ["f"; "z"; "sigma8_z"; "power_lin"; "max_mu"; "include_2loop"; "sigma_v"; "sigma_v2"; "P01"]
      ["P01"; "_power_norm"; "conformalH"; "cosmo"; "f"; "include_2loop"; "power_lin"; "sigma_v"; "sigma_v2"]);
  (* pyRSD/rsd/power/biased/power_biased.py:417 *) ("P03_ss", EProp false ["_ib1"; "_ib1_bar"; "max_mu"; "Pdv"; "P01"; "sigmav_halo"; "sigmav_halo_bar"; "b2_01_b"]
      ["P01"; "Pdv"; "_ib1"; "_ib1_bar"; "_unnormalized_K10"; "_unnormalized_K10s"; "_unnormalized_K11"; "_unnormalized_K11s"; "b2_01_b"; "bs"; "bs_bar"; "f"; "sigmav_halo"; "sigmav_halo_bar"]);
  (* pyRSD/rsd/power/dm/power_dm.py:974 *) ("P04", EProp false ["f"; "z"; "sigma8_z"; "power_lin"; "max_mu"; "include_2loop"; "sigma_v"; "sigma_bv4"; "P02"; "P00"]
      ["P00"; "P02"; "conformalH"; "cosmo"; "f"; "include_2loop"; "sigma_bv4"; "sigma_v"; "velocity_kurtosis"]);
  (* pyRSD/rsd/power/biased/power_biased.py:454 *) ("P04_ss", EProp false ["_ib1"; "_ib1_bar"; "P00"; "P02"; "sigmav_halo"; "sigmav_halo_bar"; "b2_00_d"]
      ["P00"; "P02"; "_ib1"; "_ib1_bar"; "_unnormalized_K00"; "_unnormalized_K00s"; "b2_00_d"; "bs"; "bs_bar"; "f"; "sigmav_halo"; "sigmav_halo_bar"; "velocity_kurtosis"]);
  (* pyRSD/rsd/power/dm/power_dm.py:907 *) ("P11", EProp false ["f"; "z"; "sigma8_z"; "use_P11_model"; "power_lin"; "max_mu"; "include_2loop"; "P11_mu2_loaded"; "P11_mu4_loaded"]
      ["P11_mu2_loaded"; "P11_mu4_loaded"; "_power_norm"; "_unnormalized_I11"; "_unnormalized_I13"; "_unnormalized_I22"; "_unnormalized_I31"; "_unnormalized_Idvdv_h03"; "_unnormalized_Idvdv_h04"; "_unnormalized_Ivvdd_h01"; "_unnormalized_Ivvdd_h02"; "_unnormalized_J10"; "_unnormalized_J11"; "f"; "hzpt"; "include_2loop"; "interpolate"; "power_lin"; "sigma8_z"; "use_P11_model"]);
  (* pyRSD/rsd/sim_loader.py:35 *) ("P11_mu2_loaded", EParam None);
  (* pyRSD/rsd/sim_loader.py:39 *) ("P11_mu4_loaded", EParam None);
  (* pyRSD/rsd/power/dm/power_dm.py:661 *) ("P11_sim_model", EProp false ["power_lin"]
      ["power_lin"]);
  (* pyRSD/rsd/power/biased/power_biased.py:405 *) ("P11_ss", EProp false ["_ib1"; "_ib1_bar"; "max_mu"; "P11"; "Pvv"]
      ["P11"; "Pvv"; "_ib1"; "_ib1_bar"; "_power_norm"; "_unnormalized_I22"; "_unnormalized_Idvdv_h03"; "_unnormalized_Idvdv_h04"; "_unnormalized_Ivvdd_h01"; "_unnormalized_Ivvdd_h02"; "_unnormalized_J10"; "f"; "power_lin"]);
  (* pyRSD/rsd/power/dm/power_dm.py:930 *) ("P12", EProp false ["f"; "z"; "sigma8_z"; "power_lin"; "max_mu"; "include_2loop"; "sigma_v"; "sigma_bv2"; "P01"]
      ["P01"; "_power_norm"; "_unnormalized_I03"; "_unnormalized_I12"; "_unnormalized_I21"; "_unnormalized_I30"; "_unnormalized_J02"; "_unnormalized_J20"; "conformalH"; "cosmo"; "f"; "include_2loop"; "power_lin"; "sigma_bv2"; "sigma_v"]);
  (* pyRSD/rsd/power/biased/power_biased.py:426 *) ("P12_ss", EProp false ["_ib1"; "_ib1_bar"; "max_mu"; "Pdv"; "P01"; "P12"; "sigmav_halo"; "sigmav_halo_bar"; "b2_01_b"]
      ["P01"; "P12"; "Pdv"; "_ib1"; "_ib1_bar"; "_power_norm"; "_unnormalized_I03"; "_unnormalized_I21"; "_unnormalized_I30"; "_unnormalized_J20"; "_unnormalized_K10"; "_unnormalized_K10s"; "_unnormalized_K11"; "_unnormalized_K11s"; "b2_01_b"; "bs"; "bs_bar"; "f"; "power_lin"; "sigmav_halo"; "sigmav_halo_bar"]);
  (* pyRSD/rsd/power/dm/power_dm.py:963 *) ("P13", EProp false ["f"; "z"; "sigma8_z"; "power_lin"; "max_mu"; "include_2loop"; "sigma_v"; "sigma_bv2"; "sigma_v2"; "P11"]
      ["P11"; "conformalH"; "cosmo"; "f"; "include_2loop"; "sigma_bv2"; "sigma_v"; "sigma_v2"]);
  (* pyRSD/rsd/power/biased/power_biased.py:435 *) ("P13_ss", EProp false ["P11_ss"; "sigmav_halo"; "sigmav_halo_bar"]
      ["P11_ss"; "_ib1"; "_ib1_bar"; "f"; "sigmav_halo"; "sigmav_halo_bar"]);
  (* pyRSD/rsd/power/dm/power_dm.py:942 *) ("P22", EProp false ["f"; "z"; "sigma8_z"; "power_lin"; "max_mu"; "include_2loop"; "sigma_v"; "sigma_bv2"; "P00"; "P02"]
      ["P00"; "P02"; "_power_norm"; "_unnormalized_I23"; "_unnormalized_I32"; "_unnormalized_Ivvvv_f23"; "_unnormalized_Ivvvv_f32"; "_unnormalized_J02"; "_unnormalized_J20"; "_unnormalized_sigmasq_k"; "conformalH"; "cosmo"; "f"; "include_2loop"; "power_lin"; "sigma_bv2"; "sigma_v"]);
  (* pyRSD/rsd/power/biased/power_biased.py:444 *) ("P22_ss", EProp false ["_ib1"; "_ib1_bar"; "P00"; "P02"; "P22"; "sigmav_halo"; "sigmav_halo_bar"; "b2_00_d"]
      ["P00"; "P02"; "P22"; "Pdd"; "_ib1"; "_ib1_bar"; "_power_norm"; "_unnormalized_K00"; "_unnormalized_K00s"; "_unnormalized_sigmasq_k"; "b2_00_d"; "bs"; "bs_bar"; "f"; "sigmav_halo"; "sigmav_halo_bar"]);
  (* pyRSD/rsd/power/biased/power_biased.py:486 *) ("P_mu0", EProp true ["P00_ss"; "k"]
      ["P00_ss"; "k"]);
  (* pyRSD/rsd/power/biased/power_biased.py:494 *) ("P_mu2", EProp true ["P01_ss"; "P11_ss"; "P02_ss"; "correct_mu2"; "k"]
      ["P01_ss"; "P02_ss"; "P11_ss"; "correct_mu2"; "k"; "mu2_model_correction"]);
  (* pyRSD/rsd/power/biased/power_biased.py:507 *) ("P_mu4", EProp true ["P11_ss"; "P02_ss"; "P12_ss"; "P22_ss"; "P03_ss"; "P13_ss"; "P04_ss"; "correct_mu4"; "k"]
      ["P02_ss"; "P03_ss"; "P04_ss"; "P11_ss"; "P12_ss"; "P13_ss"; "P22_ss"; "correct_mu4"; "k"; "mu4_model_correction"]);
  (* pyRSD/rsd/power/biased/power_biased.py:520 *) ("P_mu6", EProp true ["P12_ss"; "k"]
      ["P12_ss"; "_power_norm"; "_unnormalized_I32"; "f"; "k"]);
  (* pyRSD/rsd/power/dm/power_dm.py:849 *) ("Pdd", EProp true ["z"; "_power_norm"; "k"]
      ["_Pdd_0"; "_power_norm"; "k"; "power_lin"]);
  (* pyRSD/rsd/power/dm/power_dm.py:857 *) ("Pdv", EProp true ["f"; "z"; "_power_norm"; "use_Pdv_model"; "Pdv_model_type"; "Pdv_loaded"; "k"]
      ["D"; "Pdv_loaded"; "Pdv_model_type"; "Pdv_sim_model"; "_Pdv_0"; "_power_norm"; "f"; "hzpt"; "interpolate"; "k"; "power_lin"; "sigma8_z"; "use_Pdv_model"; "z"]);
  (* pyRSD/rsd/sim_loader.py:23 *) ("Pdv_loaded", EParam None);
  (* pyRSD/rsd/power/dm/power_dm.py:634 *) ("Pdv_model_type", EParam None);
  (* pyRSD/rsd/power/dm/power_dm.py:669 *) ("Pdv_sim_model", EProp false ["power_lin"]
      ["power_lin"]);
  (* pyRSD/rsd/power/biased/power_biased.py:311 *) ("Phm", EProp true ["_ib1"; "P00"; "use_Phm_model"; "sigma8_z"; "b2_00_a"; "k"]
      ["P00"; "_ib1"; "_unnormalized_K00"; "_unnormalized_K00s"; "b2_00_a"; "bs"; "hzpt"; "interpolate"; "k"; "sigma8_z"; "use_Phm_model"]);
  (* pyRSD/rsd/power/biased/power_biased.py:329 *) ("Phm_bar", EProp true ["_ib1_bar"; "P00"; "use_Phm_model"; "sigma8_z"; "b2_00_a"; "k"]
      ["P00"; "_ib1_bar"; "_unnormalized_K00"; "_unnormalized_K00s"; "b2_00_a"; "bs_bar"; "hzpt"; "interpolate"; "k"; "sigma8_z"; "use_Phm_model"]);
  (* pyRSD/rsd/power/biased/power_biased.py:189 *) ("Pmu2_correction", EProp false []
      []);
  (* pyRSD/rsd/power/biased/power_biased.py:196 *) ("Pmu4_correction", EProp false []
      []);
  (* pyRSD/rsd/power/dm/power_dm.py:876 *) ("Pvv", EProp true ["f"; "z"; "_power_norm"; "use_Pvv_model"; "k"]
      ["D"; "_Pvv_0"; "_power_norm"; "f"; "hzpt"; "interpolate"; "k"; "power_lin"; "sigma8_z"; "use_Pvv_model"]);
  (* pyRSD/rsd/pt_integrals.py:94 *) ("_Imn", EProp false ["power_lin"]
      ["power_lin"]);
  (* pyRSD/rsd/pt_integrals.py:115 *) ("_Imn1Loop_dvdv", EProp false ["_Pdv_0"]
      ["_Pdv_0"]);
  (* pyRSD/rsd/pt_integrals.py:123 *) ("_Imn1Loop_vvdd", EProp false ["_Pvv_0"; "_Pdd_0"]
      ["_Pdd_0"; "_Pvv_0"]);
  (* pyRSD/rsd/pt_integrals.py:131 *) ("_Imn1Loop_vvvv", EProp false ["_Pvv_0"]
      ["_Pvv_0"]);
  (* pyRSD/rsd/pt_integrals.py:101 *) ("_Jmn", EProp false ["power_lin"]
      ["power_lin"]);
  (* pyRSD/rsd/pt_integrals.py:108 *) ("_Kmn", EProp false ["power_lin"]
      ["power_lin"]);
  (* pyRSD/rsd/pt_integrals.py:84 *) ("_P22bar_0", EProp false ["power_lin"]
      ["power_lin"]);
  (* pyRSD/rsd/pt_integrals.py:63 *) ("_Pdd_0", EProp false ["power_lin"]
      ["power_lin"]);
  (* pyRSD/rsd/pt_integrals.py:70 *) ("_Pdv_0", EProp false ["power_lin"]
      ["power_lin"]);
  (* pyRSD/rsd/pt_integrals.py:77 *) ("_Pvv_0", EProp false ["power_lin"]
      ["power_lin"]);
  (* pyRSD/rsd/power/biased/power_biased.py:220 *) ("_ib1", EProp false ["use_mean_bias"; "b1"; "b1_bar"]
      ["b1"; "b1_bar"; "use_mean_bias"]);
  (* pyRSD/rsd/power/biased/power_biased.py:230 *) ("_ib1_bar", EProp false ["use_mean_bias"; "b1"; "b1_bar"]
      ["b1"; "b1_bar"; "use_mean_bias"]);
  (* pyRSD/rsd/power/dm/power_dm.py:571 *) ("_power_norm", EProp false ["sigma8_z"; "cosmo"]
      ["cosmo"; "sigma8_z"]);
  (* pyRSD/rsd/power/dm/power_dm.py:588 *) ("_sigma_lin_unnormed", EProp false ["power_lin"]
      ["power_lin"]);
  (* pyRSD/rsd/pt_integrals.py:181 *) ("_unnormalized_I00", EProp true ["_Imn"]
      ["_Imn"]);
  (* pyRSD/rsd/pt_integrals.py:187 *) ("_unnormalized_I01", EProp true ["_Imn"]
      ["_Imn"]);
  (* pyRSD/rsd/pt_integrals.py:193 *) ("_unnormalized_I02", EProp true ["_Imn"]
      ["_Imn"]);
  (* pyRSD/rsd/pt_integrals.py:199 *) ("_unnormalized_I03", EProp true ["_Imn"]
      ["_Imn"]);
  (* pyRSD/rsd/pt_integrals.py:205 *) ("_unnormalized_I10", EProp true ["_Imn"]
      ["_Imn"]);
  (* pyRSD/rsd/pt_integrals.py:211 *) ("_unnormalized_I11", EProp true ["_Imn"]
      ["_Imn"]);
  (* pyRSD/rsd/pt_integrals.py:217 *) ("_unnormalized_I12", EProp true ["_Imn"]
      ["_Imn"]);
  (* pyRSD/rsd/pt_integrals.py:223 *) ("_unnormalized_I13", EProp true ["_Imn"]
      ["_Imn"]);
  (* pyRSD/rsd/pt_integrals.py:229 *) ("_unnormalized_I20", EProp true ["_Imn"]
      ["_Imn"]);
  (* pyRSD/rsd/pt_integrals.py:235 *) ("_unnormalized_I21", EProp true ["_Imn"]
      ["_Imn"]);
  (* pyRSD/rsd/pt_integrals.py:241 *) ("_unnormalized_I22", EProp true ["_Imn"]
      ["_Imn"]);
  (* pyRSD/rsd/pt_integrals.py:247 *) ("_unnormalized_I23", EProp true ["_Imn"]
      ["_Imn"]);
  (* pyRSD/rsd/pt_integrals.py:253 *) ("_unnormalized_I30", EProp true ["_Imn"]
      ["_Imn"]);
  (* pyRSD/rsd/pt_integrals.py:259 *) ("_unnormalized_I31", EProp true ["_Imn"]
      ["_Imn"]);
  (* pyRSD/rsd/pt_integrals.py:265 *) ("_unnormalized_I32", EProp true ["_Imn"]
      ["_Imn"]);
  (* pyRSD/rsd/pt_integrals.py:271 *) ("_unnormalized_I33", EProp true ["_Imn"]
      ["_Imn"]);
  (* pyRSD/rsd/pt_integrals.py:380 *) ("_unnormalized_Idvdv_h03", EProp true ["_Imn1Loop_dvdv"]
      ["_Imn1Loop_dvdv"]);
  (* pyRSD/rsd/pt_integrals.py:389 *) ("_unnormalized_Idvdv_h04", EProp true ["_Imn1Loop_dvdv"]
      ["_Imn1Loop_dvdv"]);
  (* pyRSD/rsd/pt_integrals.py:362 *) ("_unnormalized_Ivvdd_h01", EProp true ["_Imn1Loop_vvdd"]
      ["_Imn1Loop_vvdd"]);
  (* pyRSD/rsd/pt_integrals.py:371 *) ("_unnormalized_Ivvdd_h02", EProp true ["_Imn1Loop_vvdd"]
      ["_Imn1Loop_vvdd"]);
  (* pyRSD/rsd/pt_integrals.py:398 *) ("_unnormalized_Ivvvv_f23", EProp true ["_Imn1Loop_vvvv"]
      ["_Imn1Loop_vvvv"]);
  (* pyRSD/rsd/pt_integrals.py:407 *) ("_unnormalized_Ivvvv_f32", EProp true ["_Imn1Loop_vvvv"]
      ["_Imn1Loop_vvvv"]);
  (* pyRSD/rsd/pt_integrals.py:416 *) ("_unnormalized_Ivvvv_f33", EProp true ["_Imn1Loop_vvvv"]
      ["_Imn1Loop_vvvv"]);
  (* pyRSD/rsd/pt_integrals.py:142 *) ("_unnormalized_J00", EProp true ["_Jmn"]
      ["_Jmn"]);
  (* pyRSD/rsd/pt_integrals.py:148 *) ("_unnormalized_J01", EProp true ["_Jmn"]
      ["_Jmn"]);
  (* pyRSD/rsd/pt_integrals.py:166 *) ("_unnormalized_J02", EProp true ["_Jmn"]
      ["_Jmn"]);
  (* pyRSD/rsd/pt_integrals.py:154 *) ("_unnormalized_J10", EProp true ["_Jmn"]
      ["_Jmn"]);
  (* pyRSD/rsd/pt_integrals.py:160 *) ("_unnormalized_J11", EProp true ["_Jmn"]
      ["_Jmn"]);
  (* pyRSD/rsd/pt_integrals.py:172 *) ("_unnormalized_J20", EProp true ["_Jmn"]
      ["_Jmn"]);
  (* pyRSD/rsd/pt_integrals.py:280 *) ("_unnormalized_K00", EProp true ["_Kmn"]
      ["_Kmn"]);
  (* pyRSD/rsd/pt_integrals.py:286 *) ("_unnormalized_K00s", EProp true ["_Kmn"]
      ["_Kmn"]);
  (* pyRSD/rsd/pt_integrals.py:292 *) ("_unnormalized_K01", EProp true ["_Kmn"]
      ["_Kmn"]);
  (* pyRSD/rsd/pt_integrals.py:298 *) ("_unnormalized_K01s", EProp true ["_Kmn"]
      ["_Kmn"]);
  (* pyRSD/rsd/pt_integrals.py:304 *) ("_unnormalized_K02s", EProp true ["_Kmn"]
      ["_Kmn"]);
  (* pyRSD/rsd/pt_integrals.py:310 *) ("_unnormalized_K10", EProp true ["_Kmn"]
      ["_Kmn"]);
  (* pyRSD/rsd/pt_integrals.py:317 *) ("_unnormalized_K10s", EProp true ["_Kmn"]
      ["_Kmn"]);
  (* pyRSD/rsd/pt_integrals.py:323 *) ("_unnormalized_K11", EProp true ["_Kmn"]
      ["_Kmn"]);
  (* pyRSD/rsd/pt_integrals.py:329 *) ("_unnormalized_K11s", EProp true ["_Kmn"]
      ["_Kmn"]);
  (* pyRSD/rsd/pt_integrals.py:335 *) ("_unnormalized_K20_a", EProp true ["_Kmn"]
      ["_Kmn"]);
  (* pyRSD/rsd/pt_integrals.py:341 *) ("_unnormalized_K20_b", EProp true ["_Kmn"]
      ["_Kmn"]);
  (* pyRSD/rsd/pt_integrals.py:347 *) ("_unnormalized_K20s_a", EProp true ["_Kmn"]
      ["_Kmn"]);
  (* pyRSD/rsd/pt_integrals.py:353 *) ("_unnormalized_K20s_b", EProp true ["_Kmn"]
      ["_Kmn"]);
  (* pyRSD/rsd/pt_integrals.py:443 *) ("_unnormalized_sigmasq_k", EProp true ["power_lin"]
      ["power_lin"]);
  (* pyRSD/rsd/pt_integrals.py:428 *) ("_unnormed_velocity_kurtosis", EProp false ["_P22bar_0"]
      ["_P22bar_0"]);
  (* pyRSD/rsd/power/dm/power_dm.py:447 *) ("alpha_drag", EParam None);
  (* pyRSD/rsd/power/dm/power_dm.py:439 *) ("alpha_par", EParam None);
  (* pyRSD/rsd/power/dm/power_dm.py:431 *) ("alpha_perp", EParam None);
  (* pyRSD/rsd/power/biased/power_biased.py:203 *) ("auto_stochasticity_fits", EProp false []
      []);
  (* pyRSD/rsd/power/biased/power_biased.py:165 *) ("b1", EParam None);
  (* pyRSD/rsd/power/biased/power_halo.py:12 *) ("b1_bar", EProp false ["b1"]
      ["b1"]);
  (* pyRSD/rsd/nonlinear_biasing.py:143 *) ("b2_00_a", EProp false ["b2_00_a__0"; "b2_00_a__2"; "b2_00_a__4"; "nonlinear_bias_types"]
      ["b2_00_a__0"; "b2_00_a__2"; "b2_00_a__4"; "nonlinear_bias_fitter"; "nonlinear_bias_types"]);
  (* pyRSD/rsd/nonlinear_biasing.py:131 *) ("b2_00_a__0", EParam None);
  (* pyRSD/rsd/nonlinear_biasing.py:135 *) ("b2_00_a__2", EParam None);
  (* pyRSD/rsd/nonlinear_biasing.py:139 *) ("b2_00_a__4", EParam None);
  (* pyRSD/rsd/nonlinear_biasing.py:166 *) ("b2_00_b", EProp false ["b2_00_b__0"; "b2_00_b__2"; "b2_00_b__4"; "nonlinear_bias_types"]
      ["b2_00_a"; "b2_00_b__0"; "b2_00_b__2"; "b2_00_b__4"; "nonlinear_bias_fitter"; "nonlinear_bias_types"]);
  (* pyRSD/rsd/nonlinear_biasing.py:154 *) ("b2_00_b__0", EParam None);
  (* pyRSD/rsd/nonlinear_biasing.py:158 *) ("b2_00_b__2", EParam None);
  (* pyRSD/rsd/nonlinear_biasing.py:162 *) ("b2_00_b__4", EParam None);
  (* pyRSD/rsd/nonlinear_biasing.py:189 *) ("b2_00_c", EProp false ["b2_00_c__0"; "b2_00_c__2"; "b2_00_c__4"; "nonlinear_bias_types"]
      ["b2_00_a"; "b2_00_c__0"; "b2_00_c__2"; "b2_00_c__4"; "nonlinear_bias_fitter"; "nonlinear_bias_types"]);
  (* pyRSD/rsd/nonlinear_biasing.py:177 *) ("b2_00_c__0", EParam None);
  (* pyRSD/rsd/nonlinear_biasing.py:181 *) ("b2_00_c__2", EParam None);
  (* pyRSD/rsd/nonlinear_biasing.py:185 *) ("b2_00_c__4", EParam None);
  (* pyRSD/rsd/nonlinear_biasing.py:212 *) ("b2_00_d", EProp false ["b2_00_d__0"; "b2_00_d__2"; "b2_00_d__4"; "nonlinear_bias_types"]
      ["b2_00_a"; "b2_00_d__0"; "b2_00_d__2"; "b2_00_d__4"; "nonlinear_bias_fitter"; "nonlinear_bias_types"]);
  (* pyRSD/rsd/nonlinear_biasing.py:200 *) ("b2_00_d__0", EParam None);
  (* pyRSD/rsd/nonlinear_biasing.py:204 *) ("b2_00_d__2", EParam None);
  (* pyRSD/rsd/nonlinear_biasing.py:208 *) ("b2_00_d__4", EParam None);
  (* pyRSD/rsd/nonlinear_biasing.py:235 *) ("b2_01_a", EProp false ["b2_01_a__0"; "b2_01_a__1"; "b2_01_a__2"; "nonlinear_bias_types"]
      ["b2_01_a__0"; "b2_01_a__1"; "b2_01_a__2"; "nonlinear_bias_fitter"; "nonlinear_bias_types"]);
  (* pyRSD/rsd/nonlinear_biasing.py:223 *) ("b2_01_a__0", EParam None);
  (* pyRSD/rsd/nonlinear_biasing.py:227 *) ("b2_01_a__1", EParam None);
  (* pyRSD/rsd/nonlinear_biasing.py:231 *) ("b2_01_a__2", EParam None);
  (* pyRSD/rsd/nonlinear_biasing.py:258 *) ("b2_01_b", EProp false ["b2_01_b__0"; "b2_01_b__1"; "b2_01_b__2"; "nonlinear_bias_types"]
      ["b2_01_a"; "b2_01_b__0"; "b2_01_b__1"; "b2_01_b__2"; "nonlinear_bias_fitter"; "nonlinear_bias_types"]);
  (* pyRSD/rsd/nonlinear_biasing.py:246 *) ("b2_01_b__0", EParam None);
  (* pyRSD/rsd/nonlinear_biasing.py:250 *) ("b2_01_b__1", EParam None);
  (* pyRSD/rsd/nonlinear_biasing.py:254 *) ("b2_01_b__2", EParam None);
  (* pyRSD/rsd/power/biased/power_biased.py:260 *) ("bias_to_sigma_relation", EProp false []
      ["cosmo"; "interpolate"]);
  (* pyRSD/rsd/power/biased/power_biased.py:240 *) ("bs", EProp false ["_ib1"; "use_tidal_bias"]
      ["_ib1"; "use_tidal_bias"]);
  (* pyRSD/rsd/power/biased/power_halo.py:19 *) ("bs_bar", EProp false ["bs"]
      ["bs"]);
  (* pyRSD/rsd/power/dm/power_dm.py:548 *) ("conformalH", EProp false ["z"; "cosmo"]
      ["cosmo"; "z"]);
  (* pyRSD/rsd/power/biased/power_biased.py:103 *) ("correct_mu2", EParam None);
  (* pyRSD/rsd/power/biased/power_biased.py:110 *) ("correct_mu4", EParam None);
  (* pyRSD/rsd/power/dm/power_dm.py:510 *) ("cosmo", EProp false ["params"; "transfer_fit"; "linear_power_file"]
      ["linear_power_file"; "params"; "transfer_fit_int"]);
  (* pyRSD/rsd/power/dm/power_dm.py:299 *) ("cosmo_filename", EParam None);
  (* pyRSD/rsd/power/biased/power_biased.py:210 *) ("cross_stochasticity_fits", EProp false []
      []);
  (* pyRSD/rsd/power/dm/power_dm.py:420 *) ("f", EParam None);
  (* pyRSD/rsd/power/dm/power_dm.py:496 *) ("fiducial_rs_drag", EProp false ["cosmo"]
      ["cosmo"]);
  (* pyRSD/rsd/power/dm/power_dm.py:653 *) ("hzpt", EProp false ["cosmo"]
      ["cosmo"]);
  (* pyRSD/rsd/power/dm/power_dm.py:348 *) ("include_2loop", EParam None);
  (* pyRSD/rsd/power/dm/power_dm.py:281 *) ("interpolate", EParam None);
  (* pyRSD/rsd/power/dm/power_dm.py:527 *) ("k", EProp false ["Nk"; "kmin"; "kmax"]
      ["Nk"; "kmax"; "kmin"]);
  (* pyRSD/rsd/power/dm/power_dm.py:373 *) ("k0_low", EParam None);
  (* pyRSD/rsd/power/dm/power_dm.py:391 *) ("kmax", EParam None);
  (* pyRSD/rsd/power/dm/power_dm.py:382 *) ("kmin", EParam None);
  (* pyRSD/rsd/power/dm/power_dm.py:330 *) ("linear_power_file", EParam None);
  (* pyRSD/rsd/power/dm/power_dm.py:337 *) ("max_mu", EParam None);
  (* pyRSD/rsd/power/biased/power_biased.py:463 *) ("mu2_model_correction", EProp true ["_ib1"; "_ib1_bar"; "sigma8_z"; "f"; "k"]
      ["Pmu2_correction"; "_ib1"; "_ib1_bar"; "f"; "k"; "sigma8_z"]);
  (* pyRSD/rsd/power/biased/power_biased.py:473 *) ("mu4_model_correction", EProp true ["_ib1"; "_ib1_bar"; "sigma8_z"; "f"; "k"]
      ["Pmu4_correction"; "_ib1"; "_ib1_bar"; "f"; "k"; "sigma8_z"]);
  (* pyRSD/rsd/nonlinear_biasing.py:74 *) ("nonlinear_bias_fitter", EProp false []
      []);
  (* pyRSD/rsd/nonlinear_biasing.py:81 *) ("nonlinear_bias_types", EParam None);
  (* pyRSD/rsd/power/dm/power_dm.py:307 *) ("params", EParam None);
  (* pyRSD/rsd/power/dm/power_dm.py:555 *) ("power_lin", EProp false ["cosmo"]
      ["cosmo"]);
  (* pyRSD/rsd/power/dm/power_dm.py:562 *) ("power_lin_nw", EProp false ["cosmo"]
      ["cosmo"]);
  (* pyRSD/rsd/power/dm/power_dm.py:644 *) ("redshift_params", EParam None);
  (* pyRSD/rsd/power/dm/power_dm.py:407 *) ("sigma8_z", EParam None);
  (* pyRSD/rsd/power/dm/power_dm.py:473 *) ("sigma_bv2", EParam None);
  (* pyRSD/rsd/power/dm/power_dm.py:483 *) ("sigma_bv4", EParam None);
  (* pyRSD/rsd/power/dm/power_dm.py:580 *) ("sigma_lin", EProp false ["_power_norm"; "_sigma_lin_unnormed"]
      ["_power_norm"; "_sigma_lin_unnormed"]);
  (* pyRSD/rsd/power/dm/power_dm.py:455 *) ("sigma_v", EParam (Some "sigma_lin"));
  (* pyRSD/rsd/power/dm/power_dm.py:463 *) ("sigma_v2", EParam None);
  (* pyRSD/rsd/power/biased/power_biased.py:269 *) ("sigmav_halo", EProp false ["sigma_v"; "sigma_lin"; "vel_disp_from_sims"; "_ib1"; "sigma8_z"]
      ["_ib1"; "sigma8_z"; "sigma_v"; "vel_disp_fitter"; "vel_disp_from_sims"]);
  (* pyRSD/rsd/power/biased/power_biased.py:279 *) ("sigmav_halo_bar", EProp false ["sigma_v"; "sigma_lin"; "vel_disp_from_sims"; "_ib1_bar"; "sigma8_z"]
      ["_ib1_bar"; "sigma8_z"; "sigma_v"; "vel_disp_fitter"; "vel_disp_from_sims"]);
  (* pyRSD/rsd/power/biased/power_biased.py:347 *) ("stochasticity", EProp true ["_ib1"; "_ib1_bar"; "z"; "sigma8_z"; "k"]
      ["_ib1"; "_ib1_bar"; "auto_stochasticity_fits"; "cross_stochasticity_fits"; "k"; "sigma8_z"]);
  (* pyRSD/rsd/power/dm/power_dm.py:289 *) ("transfer_fit", EParam None);
  (* pyRSD/rsd/power/dm/power_dm.py:503 *) ("transfer_fit_int", EProp false ["transfer_fit"]
      ["transfer_fit"]);
  (* pyRSD/rsd/power/dm/power_dm.py:599 *) ("use_P00_model", EParam None);
  (* pyRSD/rsd/power/dm/power_dm.py:606 *) ("use_P01_model", EParam None);
  (* pyRSD/rsd/power/dm/power_dm.py:613 *) ("use_P11_model", EParam None);
  (* pyRSD/rsd/power/dm/power_dm.py:620 *) ("use_Pdv_model", EParam None);
  (* pyRSD/rsd/power/biased/power_biased.py:158 *) ("use_Phm_model", EParam None);
  (* pyRSD/rsd/power/dm/power_dm.py:627 *) ("use_Pvv_model", EParam None);
  (* pyRSD/rsd/power/biased/power_biased.py:117 *) ("use_mean_bias", EParam None);
  (* pyRSD/rsd/power/biased/power_biased.py:151 *) ("use_tidal_bias", EParam None);
  (* pyRSD/rsd/nonlinear_biasing.py:88 *) ("use_vlah_biasing", EParam None);
  (* pyRSD/rsd/power/biased/power_biased.py:182 *) ("vel_disp_fitter", EProp false []
      []);
  (* pyRSD/rsd/power/biased/power_biased.py:142 *) ("vel_disp_from_sims", EParam None);
  (* pyRSD/rsd/pt_integrals.py:435 *) ("velocity_kurtosis", EProp false ["_unnormed_velocity_kurtosis"; "_power_norm"]
      ["_power_norm"; "_unnormed_velocity_kurtosis"]);
  (* pyRSD/rsd/power/biased/power_biased.py:124 *) ("z", EParam None)
].
(** parameters some cached attribute of the class depends on without declaring it *)
Definition gaps_HaloSpectrum : list string := ["Nk"; "b2_00_a__0"; "b2_00_a__2"; "b2_00_a__4"; "b2_01_a__0"; "b2_01_a__1"; "b2_01_a__2"; "interpolate"; "kmax"; "kmin"; "linear_power_file"; "params"; "transfer_fit"; "use_tidal_bias"].

(** class GalaxySpectrum; MRO: GalaxySpectrum BiasedSpectrum DarkMatterSpectrum Cache SimLoaderMixin PTIntegralsMixin NonlinearBiasingMixin *)
Definition tbl_GalaxySpectrum : table := [
  (* pyRSD/rsd/power/dm/power_dm.py:541 *) ("D", EProp false ["z"; "cosmo"]
      ["cosmo"; "z"]);
  (* pyRSD/rsd/power/gal/power_gal.py:266 *) ("FOG", EProp false ["fog_model"]
      ["fog_model"]);
  (* pyRSD/rsd/power/gal/power_gal.py:256 *) ("N", EParam None);
  (* pyRSD/rsd/power/gal/power_gal.py:242 *) ("NcBs", EParam None);
  (* pyRSD/rsd/power/dm/power_dm.py:400 *) ("Nk", EParam None);
  (* pyRSD/rsd/power/gal/power_gal.py:249 *) ("NsBsB", EParam None);
  (* pyRSD/rsd/power/dm/power_dm.py:887 *) ("P00", EProp false ["z"; "sigma8_z"; "use_P00_model"; "power_lin"; "P00_mu0_loaded"]
      ["P00_mu0_loaded"; "_power_norm"; "_unnormalized_I00"; "_unnormalized_J00"; "hzpt"; "interpolate"; "power_lin"; "sigma8_z"; "use_P00_model"]);
  (* pyRSD/rsd/sim_loader.py:27 *) ("P00_mu0_loaded", EParam None);
  (* pyRSD/rsd/power/biased/power_biased.py:369 *) ("P00_ss", EProp false ["P00_ss_no_stoch"; "stochasticity"]
      ["P00_ss_no_stoch"; "stochasticity"]);
  (* pyRSD/rsd/power/biased/power_biased.py:378 *) ("P00_ss_no_stoch", EProp false ["P00"; "Phm"; "Phm_bar"]
      ["P00"; "Phm"; "Phm_bar"]);
  (* pyRSD/rsd/power/dm/power_dm.py:897 *) ("P01", EProp false ["f"; "z"; "sigma8_z"; "use_P01_model"; "power_lin"; "max_mu"; "P01_mu2_loaded"]
      ["P01_mu2_loaded"; "_power_norm"; "_unnormalized_I00"; "_unnormalized_J00"; "f"; "hzpt"; "interpolate"; "power_lin"; "sigma8_z"; "use_P01_model"]);
  (* pyRSD/rsd/sim_loader.py:31 *) ("P01_mu2_loaded", EParam None);
  (* pyRSD/rsd/power/biased/power_biased.py:386 *) ("P01_ss", EProp false ["_ib1"; "_ib1_bar"; "max_mu"; "Pdv"; "P01"; "b2_01_a"]
      ["P01"; "Pdv"; "_ib1"; "_ib1_bar"; "_unnormalized_K10"; "_unnormalized_K10s"; "_unnormalized_K11"; "_unnormalized_K11s"; "b2_01_a"; "bs"; "bs_bar"; "f"]);
  (* pyRSD/rsd/power/dm/power_dm.py:919 *) ("P02", EProp false ["f"; "z"; "sigma8_z"; "power_lin"; "max_mu"; "include_2loop"; "sigma_v"; "sigma_bv2"; "P00"]
      ["P00"; "_power_norm"; "_unnormalized_I02"; "_unnormalized_I20"; "_unnormalized_J02"; "_unnormalized_J20"; "conformalH"; "cosmo"; "f"; "include_2loop"; "power_lin"; "sigma_bv2"; "sigma_v"]);
  (* pyRSD/rsd/power/biased/power_biased.py:396 *) ("P02_ss", EProp false ["_ib1"; "_ib1_bar"; "max_mu"; "P02"; "P00"; "sigmav_halo"; "sigmav_halo_bar"; "b2_00_b"; "b2_00_c"]
      ["P00"; "P02"; "_ib1"; "_ib1_bar"; "_unnormalized_K00"; "_unnormalized_K00s"; "_unnormalized_K20_a"; "_unnormalized_K20_b"; "_unnormalized_K20s_a"; "_unnormalized_K20s_b"; "b2_00_b"; "b2_00_c"; "bs"; "bs_bar"; "f"; "sigmav_halo"; "sigmav_halo_bar"]);
  (* pyRSD/rsd/power/dm/power_dm.py:953 *) ("P03", EProp false ["f"; "z"; "sigma8_z"; "power_lin"; "max_mu"; "include_2loop"; "sigma_v"; "sigma_v2"; "P01"]
      ["P01"; "_power_norm"; "conformalH"; "cosmo"; "f"; "include_2loop"; "power_lin"; "sigma_v"; "sigma_v2"]);
  (* pyRSD/rsd/power/biased/power_biased.py:417 *) ("P03_ss", EProp false ["_ib1"; "_ib1_bar"; "max_mu"; "Pdv"; "P01"; "sigmav_halo"; "sigmav_halo_bar"; "b2_01_b"]
      ["P01"; "Pdv"; "_ib1"; "_ib1_bar"; "_unnormalized_K10"; "_unnormalized_K10s"; "_unnormalized_K11"; "_unnormalized_K11s"; "b2_01_b"; "bs"; "bs_bar"; "f"; "sigmav_halo"; "sigmav_halo_bar"]);
  (* pyRSD/rsd/power/dm/power_dm.py:974 *) ("P04", EProp false ["f"; "z"; "sigma8_z"; "power_lin"; "max_mu"; "include_2loop"; "sigma_v"; "sigma_bv4"; "P02"; "P00"]
      ["P00"; "P02"; "conformalH"; "cosmo"; "f"; "include_2loop"; "sigma_bv4"; "sigma_v"; "velocity_kurtosis"]);
  (* pyRSD/rsd/power/biased/power_biased.py:454 *) ("P04_ss", EProp false ["_ib1"; "_ib1_bar"; "P00"; "P02"; "sigmav_halo"; "sigmav_halo_bar"; "b2_00_d"]
      ["P00"; "P02"; "_ib1"; "_ib1_bar"; "_unnormalized_K00"; "_unnormalized_K00s"; "b2_00_d"; "bs"; "bs_bar"; "f"; "sigmav_halo"; "sigmav_halo_bar"; "velocity_kurtosis"]);
  (* pyRSD/rsd/power/dm/power_dm.py:907 *) ("P11", EProp false ["f"; "z"; "sigma8_z"; "use_P11_model"; "power_lin"; "max_mu"; "include_2loop"; "P11_mu2_loaded"; "P11_mu4_loaded"]
      ["P11_mu2_loaded"; "P11_mu4_loaded"; "_power_norm"; "_unnormalized_I11"; "_unnormalized_I13"; "_unnormalized_I22"; "_unnormalized_I31"; "_unnormalized_Idvdv_h03"; "_unnormalized_Idvdv_h04"; "_unnormalized_Ivvdd_h01"; "_unnormalized_Ivvdd_h02"; "_unnormalized_J10"; "_unnormalized_J11"; "f"; "hzpt"; "include_2loop"; "interpolate"; "power_lin"; "sigma8_z"; "use_P11_model"]);
  (* pyRSD/rsd/sim_loader.py:35 *) ("P11_mu2_loaded", EParam None);
  (* pyRSD/rsd/sim_loader.py:39 *) ("P11_mu4_loaded", EParam None);
  (* pyRSD/rsd/power/dm/power_dm.py:661 *) ("P11_sim_model", EProp false ["power_lin"]
      ["power_lin"]);
  (* pyRSD/rsd/power/biased/power_biased.py:405 *) ("P11_ss", EProp false ["_ib1"; "_ib1_bar"; "max_mu"; "P11"; "Pvv"]
      ["P11"; "Pvv"; "_ib1"; "_ib1_bar"; "_power_norm"; "_unnormalized_I22"; "_unnormalized_Idvdv_h03"; "_unnormalized_Idvdv_h04"; "_unnormalized_Ivvdd_h01"; "_unnormalized_Ivvdd_h02"; "_unnormalized_J10"; "f"; "power_lin"]);
  (* pyRSD/rsd/power/dm/power_dm.py:930 *) ("P12", EProp false ["f"; "z"; "sigma8_z"; "power_lin"; "max_mu"; "include_2loop"; "sigma_v"; "sigma_bv2"; "P01"]
      ["P01"; "_power_norm"; "_unnormalized_I03"; "_unnormalized_I12"; "_unnormalized_I21"; "_unnormalized_I30"; "_unnormalized_J02"; "_unnormalized_J20"; "conformalH"; "cosmo"; "f"; "include_2loop"; "power_lin"; "sigma_bv2"; "sigma_v"]);
  (* pyRSD/rsd/power/biased/power_biased.py:426 *) ("P12_ss", EProp false ["_ib1"; "_ib1_bar"; "max_mu"; "Pdv"; "P01"; "P12"; "sigmav_halo"; "sigmav_halo_bar"; "b2_01_b"]
      ["P01"; "P12"; "Pdv"; "_ib1"; "_ib1_bar"; "_power_norm"; "_unnormalized_I03"; "_unnormalized_I21"; "_unnormalized_I30"; "_unnormalized_J20"; "_unnormalized_K10"; "_unnormalized_K10s"; "_unnormalized_K11"; "_unnormalized_K11s"; "b2_01_b"; "bs"; "bs_bar"; "f"; "power_lin"; "sigmav_halo"; "sigmav_halo_bar"]);
  (* pyRSD/rsd/power/dm/power_dm.py:963 *) ("P13", EProp false ["f"; "z"; "sigma8_z"; "power_lin"; "max_mu"; "include_2loop"; "sigma_v"; "sigma_bv2"; "sigma_v2"; "P11"]
      ["P11"; "conformalH"; "cosmo"; "f"; "include_2loop"; "sigma_bv2"; "sigma_v"; "sigma_v2"]);
  (* pyRSD/rsd/power/biased/power_biased.py:435 *) ("P13_ss", EProp false ["P11_ss"; "sigmav_halo"; "sigmav_halo_bar"]
      ["P11_ss"; "_ib1"; "_ib1_bar"; "f"; "sigmav_halo"; "sigmav_halo_bar"]);
  (* pyRSD/rsd/power/dm/power_dm.py:942 *) ("P22", EProp false ["f"; "z"; "sigma8_z"; "power_lin"; "max_mu"; "include_2loop"; "sigma_v"; "sigma_bv2"; "P00"; "P02"]
      ["P00"; "P02"; "_power_norm"; "_unnormalized_I23"; "_unnormalized_I32"; "_unnormalized_Ivvvv_f23"; "_unnormalized_Ivvvv_f32"; "_unnormalized_J02"; "_unnormalized_J20"; "_unnormalized_sigmasq_k"; "conformalH"; "cosmo"; "f"; "include_2loop"; "power_lin"; "sigma_bv2"; "sigma_v"]);
  (* pyRSD/rsd/power/biased/power_biased.py:444 *) ("P22_ss", EProp false ["_ib1"; "_ib1_bar"; "P00"; "P02"; "P22"; "sigmav_halo"; "sigmav_halo_bar"; "b2_00_d"]
      ["P00"; "P02"; "P22"; "Pdd"; "_ib1"; "_ib1_bar"; "_power_norm"; "_unnormalized_K00"; "_unnormalized_K00s"; "_unnormalized_sigmasq_k"; "b2_00_d"; "bs"; "bs_bar"; "f"; "sigmav_halo"; "sigmav_halo_bar"]);
  (* pyRSD/rsd/power/biased/power_biased.py:486 *) ("P_mu0", EProp true ["P00_ss"; "k"]
      ["P00_ss"; "k"]);
  (* pyRSD/rsd/power/biased/power_biased.py:494 *) ("P_mu2", EProp true ["P01_ss"; "P11_ss"; "P02_ss"; "correct_mu2"; "k"]
      ["P01_ss"; "P02_ss"; "P11_ss"; "correct_mu2"; "k"; "mu2_model_correction"]);
  (* pyRSD/rsd/power/biased/power_biased.py:507 *) ("P_mu4", EProp true ["P11_ss"; "P02_ss"; "P12_ss"; "P22_ss"; "P03_ss"; "P13_ss"; "P04_ss"; "correct_mu4"; "k"]
      ["P02_ss"; "P03_ss"; "P04_ss"; "P11_ss"; "P12_ss"; "P13_ss"; "P22_ss"; "correct_mu4"; "k"; "mu4_model_correction"]);
  (* pyRSD/rsd/power/biased/power_biased.py:520 *) ("P_mu6", EProp true ["P12_ss"; "k"]
      ["P12_ss"; "_power_norm"; "_unnormalized_I32"; "f"; "k"]);
  (* pyRSD/rsd/power/dm/power_dm.py:849 *) ("Pdd", EProp true ["z"; "_power_norm"; "k"]
      ["_Pdd_0"; "_power_norm"; "k"; "power_lin"]);
  (* pyRSD/rsd/power/dm/power_dm.py:857 *) ("Pdv", EProp true ["f"; "z"; "_power_norm"; "use_Pdv_model"; "Pdv_model_type"; "Pdv_loaded"; "k"]
      ["D"; "Pdv_loaded"; "Pdv_model_type"; "Pdv_sim_model"; "_Pdv_0"; "_power_norm"; "f"; "hzpt"; "interpolate"; "k"; "power_lin"; "sigma8_z"; "use_Pdv_model"; "z"]);
  (* pyRSD/rsd/sim_loader.py:23 *) ("Pdv_loaded", EParam None);
  (* pyRSD/rsd/power/dm/power_dm.py:634 *) ("Pdv_model_type", EParam None);
  (* pyRSD/rsd/power/dm/power_dm.py:669 *) ("Pdv_sim_model", EProp false ["power_lin"]
      ["power_lin"]);
  (* pyRSD/rsd/power/biased/power_biased.py:311 *) ("Phm", EProp true ["_ib1"; "P00"; "use_Phm_model"; "sigma8_z"; "b2_00_a"; "k"]
      ["P00"; "_ib1"; "_unnormalized_K00"; "_unnormalized_K00s"; "b2_00_a"; "bs"; "hzpt"; "interpolate"; "k"; "sigma8_z"; "use_Phm_model"]);
  (* pyRSD/rsd/power/biased/power_biased.py:329 *) ("Phm_bar", EProp true ["_ib1_bar"; "P00"; "use_Phm_model"; "sigma8_z"; "b2_00_a"; "k"]
      ["P00"; "_ib1_bar"; "_unnormalized_K00"; "_unnormalized_K00s"; "b2_00_a"; "bs_bar"; "hzpt"; "interpolate"; "k"; "sigma8_z"; "use_Phm_model"]);
  (* pyRSD/rsd/power/biased/power_biased.py:189 *) ("Pmu2_correction", EProp false []
      []);
  (* pyRSD/rsd/power/biased/power_biased.py:196 *) ("Pmu4_correction", EProp false []
      []);
  (* pyRSD/rsd/power/dm/power_dm.py:876 *) ("Pvv", EProp true ["f"; "z"; "_power_norm"; "use_Pvv_model"; "k"]
      ["D"; "_Pvv_0"; "_power_norm"; "f"; "hzpt"; "interpolate"; "k"; "power_lin"; "sigma8_z"; "use_Pvv_model"]);
  (* pyRSD/rsd/pt_integrals.py:94 *) ("_Imn", EProp false ["power_lin"]
      ["power_lin"]);
  (* pyRSD/rsd/pt_integrals.py:115 *) ("_Imn1Loop_dvdv", EProp false ["_Pdv_0"]
      ["_Pdv_0"]);
  (* pyRSD/rsd/pt_integrals.py:123 *) ("_Imn1Loop_vvdd", EProp false ["_Pvv_0"; "_Pdd_0"]
      ["_Pdd_0"; "_Pvv_0"]);
  (* pyRSD/rsd/pt_integrals.py:131 *) ("_Imn1Loop_vvvv", EProp false ["_Pvv_0"]
      ["_Pvv_0"]);
  (* pyRSD/rsd/pt_integrals.py:101 *) ("_Jmn", EProp false ["power_lin"]
      ["power_lin"]);
  (* pyRSD/rsd/pt_integrals.py:108 *) ("_Kmn", EProp false ["power_lin"]
      ["power_lin"]);
  (* pyRSD/rsd/pt_integrals.py:84 *) ("_P22bar_0", EProp false ["power_lin"]
      ["power_lin"]);
  (* pyRSD/rsd/pt_integrals.py:63 *) ("_Pdd_0", EProp false ["power_lin"]
      ["power_lin"]);
  (* pyRSD/rsd/pt_integrals.py:70 *) ("_Pdv_0", EProp false ["power_lin"]
      ["power_lin"]);
  (* pyRSD/rsd/pt_integrals.py:77 *) ("_Pvv_0", EProp false ["power_lin"]
      ["power_lin"]);
  (* pyRSD/rsd/power/biased/power_biased.py:220 *) ("_ib1", EProp false ["use_mean_bias"; "b1"; "b1_bar"]
      ["b1"; "b1_bar"; "use_mean_bias"]);
  (* pyRSD/rsd/power/biased/power_biased.py:230 *) ("_ib1_bar", EProp false ["use_mean_bias"; "b1"; "b1_bar"]
      ["b1"; "b1_bar"; "use_mean_bias"]);
  (* pyRSD/rsd/power/dm/power_dm.py:571 *) ("_power_norm", EProp false ["sigma8_z"; "cosmo"]
      ["cosmo"; "sigma8_z"]);
  (* pyRSD/rsd/power/dm/power_dm.py:588 *) ("_sigma_lin_unnormed", EProp false ["power_lin"]
      ["power_lin"]);
  (* pyRSD/rsd/pt_integrals.py:181 *) ("_unnormalized_I00", EProp true ["_Imn"]
      ["_Imn"]);
  (* pyRSD/rsd/pt_integrals.py:187 *) ("_unnormalized_I01", EProp true ["_Imn"]
      ["_Imn"]);
  (* pyRSD/rsd/pt_integrals.py:193 *) ("_unnormalized_I02", EProp true ["_Imn"]
      ["_Imn"]);
  (* pyRSD/rsd/pt_integrals.py:199 *) ("_unnormalized_I03", EProp true ["_Imn"]
      ["_Imn"]);
  (* pyRSD/rsd/pt_integrals.py:205 *) ("_unnormalized_I10", EProp true ["_Imn"]
      ["_Imn"]);
  (* pyRSD/rsd/pt_integrals.py:211 *) ("_unnormalized_I11", EProp true ["_Imn"]
      ["_Imn"]);
  (* pyRSD/rsd/pt_integrals.py:217 *) ("_unnormalized_I12", EProp true ["_Imn"]
      ["_Imn"]);
  (* pyRSD/rsd/pt_integrals.py:223 *) ("_unnormalized_I13", EProp true ["_Imn"]
      ["_Imn"]);
  (* pyRSD/rsd/pt_integrals.py:229 *) ("_unnormalized_I20", EProp true ["_Imn"]
      ["_Imn"]);
  (* pyRSD/rsd/pt_integrals.py:235 *) ("_unnormalized_I21", EProp true ["_Imn"]
      ["_Imn"]);
  (* pyRSD/rsd/pt_integrals.py:241 *) ("_unnormalized_I22", EProp true ["_Imn"]
      ["_Imn"]);
  (* pyRSD/rsd/pt_integrals.py:247 *) ("_unnormalized_I23", EProp true ["_Imn"]
      ["_Imn"]);
  (* pyRSD/rsd/pt_integrals.py:253 *) ("_unnormalized_I30", EProp true ["_Imn"]
      ["_Imn"]);
  (* pyRSD/rsd/pt_integrals.py:259 *) ("_unnormalized_I31", EProp true ["_Imn"]
      ["_Imn"]);
  (* pyRSD/rsd/pt_integrals.py:265 *) ("_unnormalized_I32", EProp true ["_Imn"]
      ["_Imn"]);
  (* pyRSD/rsd/pt_integrals.py:271 *) ("_unnormalized_I33", EProp true ["_Imn"]
      ["_Imn"]);
  (* pyRSD/rsd/pt_integrals.py:380 *) ("_unnormalized_Idvdv_h03", EProp true ["_Imn1Loop_dvdv"]
      ["_Imn1Loop_dvdv"]);
  (* pyRSD/rsd/pt_integrals.py:389 *) ("_unnormalized_Idvdv_h04", EProp true ["_Imn1Loop_dvdv"]
      ["_Imn1Loop_dvdv"]);
  (* pyRSD/rsd/pt_integrals.py:362 *) ("_unnormalized_Ivvdd_h01", EProp true ["_Imn1Loop_vvdd"]
      ["_Imn1Loop_vvdd"]);
  (* pyRSD/rsd/pt_integrals.py:371 *) ("_unnormalized_Ivvdd_h02", EProp true ["_Imn1Loop_vvdd"]
      ["_Imn1Loop_vvdd"]);
  (* pyRSD/rsd/pt_integrals.py:398 *) ("_unnormalized_Ivvvv_f23", EProp true ["_Imn1Loop_vvvv"]
      ["_Imn1Loop_vvvv"]);
  (* pyRSD/rsd/pt_integrals.py:407 *) ("_unnormalized_Ivvvv_f32", EProp true ["_Imn1Loop_vvvv"]
      ["_Imn1Loop_vvvv"]);
  (* pyRSD/rsd/pt_integrals.py:416 *) ("_unnormalized_Ivvvv_f33", EProp true ["_Imn1Loop_vvvv"]
      ["_Imn1Loop_vvvv"]);
  (* pyRSD/rsd/pt_integrals.py:142 *) ("_unnormalized_J00", EProp true ["_Jmn"]
      ["_Jmn"]);
  (* pyRSD/rsd/pt_integrals.py:148 *) ("_unnormalized_J01", EProp true ["_Jmn"]
      ["_Jmn"]);
  (* pyRSD/rsd/pt_integrals.py:166 *) ("_unnormalized_J02", EProp true ["_Jmn"]
      ["_Jmn"]);
  (* pyRSD/rsd/pt_integrals.py:154 *) ("_unnormalized_J10", EProp true ["_Jmn"]
      ["_Jmn"]);
  (* pyRSD/rsd/pt_integrals.py:160 *) ("_unnormalized_J11", EProp true ["_Jmn"]
      ["_Jmn"]);
  (* pyRSD/rsd/pt_integrals.py:172 *) ("_unnormalized_J20", EProp true ["_Jmn"]
      ["_Jmn"]);
  (* pyRSD/rsd/pt_integrals.py:280 *) ("_unnormalized_K00", EProp true ["_Kmn"]
      ["_Kmn"]);
  (* pyRSD/rsd/pt_integrals.py:286 *) ("_unnormalized_K00s", EProp true ["_Kmn"]
      ["_Kmn"]);
  (* pyRSD/rsd/pt_integrals.py:292 *) ("_unnormalized_K01", EProp true ["_Kmn"]
      ["_Kmn"]);
  (* pyRSD/rsd/pt_integrals.py:298 *) ("_unnormalized_K01s", EProp true ["_Kmn"]
      ["_Kmn"]);
  (* pyRSD/rsd/pt_integrals.py:304 *) ("_unnormalized_K02s", EProp true ["_Kmn"]
      ["_Kmn"]);
  (* pyRSD/rsd/pt_integrals.py:310 *) ("_unnormalized_K10", EProp true ["_Kmn"]
      ["_Kmn"]);
  (* pyRSD/rsd/pt_integrals.py:317 *) ("_unnormalized_K10s", EProp true ["_Kmn"]
      ["_Kmn"]);
  (* pyRSD/rsd/pt_integrals.py:323 *) ("_unnormalized_K11", EProp true ["_Kmn"]
      ["_Kmn"]);
  (* pyRSD/rsd/pt_integrals.py:329 *) ("_unnormalized_K11s", EProp true ["_Kmn"]
      ["_Kmn"]);
  (* pyRSD/rsd/pt_integrals.py:335 *) ("_unnormalized_K20_a", EProp true ["_Kmn"]
      ["_Kmn"]);
  (* pyRSD/rsd/pt_integrals.py:341 *) ("_unnormalized_K20_b", EProp true ["_Kmn"]
      ["_Kmn"]);
  (* pyRSD/rsd/pt_integrals.py:347 *) ("_unnormalized_K20s_a", EProp true ["_Kmn"]
      ["_Kmn"]);
  (* pyRSD/rsd/pt_integrals.py:353 *) ("_unnormalized_K20s_b", EProp true ["_Kmn"]
      ["_Kmn"]);
  (* pyRSD/rsd/pt_integrals.py:443 *) ("_unnormalized_sigmasq_k", EProp true ["power_lin"]
      ["power_lin"]);
  (* pyRSD/rsd/pt_integrals.py:428 *) ("_unnormed_velocity_kurtosis", EProp false ["_P22bar_0"]
      ["_P22bar_0"]);
  (* pyRSD/rsd/power/dm/power_dm.py:447 *) ("alpha_drag", EParam None);
  (* pyRSD/rsd/power/dm/power_dm.py:439 *) ("alpha_par", EParam None);
  (* pyRSD/rsd/power/dm/power_dm.py:431 *) ("alpha_perp", EParam None);
  (* pyRSD/rsd/power/biased/power_biased.py:203 *) ("auto_stochasticity_fits", EProp false []
      []);
  (* pyRSD/rsd/power/biased/power_biased.py:165 *) ("b1", EParam None);
  (* pyRSD/rsd/power/biased/power_biased.py:172 *) ("b1_bar", EParam None);
  (* pyRSD/rsd/power/gal/power_gal.py:273 *) ("b1_c", EProp false ["fcB"; "b1_cB"; "b1_cA"]
      ["b1_cA"; "b1_cB"; "fcB"]);
  (* pyRSD/rsd/power/gal/power_gal.py:186 *) ("b1_cA", EParam None);
  (* pyRSD/rsd/power/gal/power_gal.py:193 *) ("b1_cB", EParam None);
  (* pyRSD/rsd/power/gal/power_gal.py:281 *) ("b1_s", EProp false ["fsB"; "b1_sB"; "b1_sA"]
      ["b1_sA"; "b1_sB"; "fsB"]);
  (* pyRSD/rsd/power/gal/power_gal.py:200 *) ("b1_sA", EParam None);
  (* pyRSD/rsd/power/gal/power_gal.py:207 *) ("b1_sB", EParam None);
  (* pyRSD/rsd/nonlinear_biasing.py:143 *) ("b2_00_a", EProp false ["b2_00_a__0"; "b2_00_a__2"; "b2_00_a__4"; "nonlinear_bias_types"]
      ["b2_00_a__0"; "b2_00_a__2"; "b2_00_a__4"; "nonlinear_bias_fitter"; "nonlinear_bias_types"]);
  (* pyRSD/rsd/nonlinear_biasing.py:131 *) ("b2_00_a__0", EParam None);
  (* pyRSD/rsd/nonlinear_biasing.py:135 *) ("b2_00_a__2", EParam None);
  (* pyRSD/rsd/nonlinear_biasing.py:139 *) ("b2_00_a__4", EParam None);
  (* pyRSD/rsd/nonlinear_biasing.py:166 *) ("b2_00_b", EProp false ["b2_00_b__0"; "b2_00_b__2"; "b2_00_b__4"; "nonlinear_bias_types"]
      ["b2_00_a"; "b2_00_b__0"; "b2_00_b__2"; "b2_00_b__4"; "nonlinear_bias_fitter"; "nonlinear_bias_types"]);
  (* pyRSD/rsd/nonlinear_biasing.py:154 *) ("b2_00_b__0", EParam None);
  (* pyRSD/rsd/nonlinear_biasing.py:158 *) ("b2_00_b__2", EParam None);
  (* pyRSD/rsd/nonlinear_biasing.py:162 *) ("b2_00_b__4", EParam None);
  (* pyRSD/rsd/nonlinear_biasing.py:189 *) ("b2_00_c", EProp false ["b2_00_c__0"; "b2_00_c__2"; "b2_00_c__4"; "nonlinear_bias_types"]
      ["b2_00_a"; "b2_00_c__0"; "b2_00_c__2"; "b2_00_c__4"; "nonlinear_bias_fitter"; "nonlinear_bias_types"]);
  (* pyRSD/rsd/nonlinear_biasing.py:177 *) ("b2_00_c__0", EParam None);
  (* pyRSD/rsd/nonlinear_biasing.py:181 *) ("b2_00_c__2", EParam None);
  (* pyRSD/rsd/nonlinear_biasing.py:185 *) ("b2_00_c__4", EParam None);
  (* pyRSD/rsd/nonlinear_biasing.py:212 *) ("b2_00_d", EProp false ["b2_00_d__0"; "b2_00_d__2"; "b2_00_d__4"; "nonlinear_bias_types"]
      ["b2_00_a"; "b2_00_d__0"; "b2_00_d__2"; "b2_00_d__4"; "nonlinear_bias_fitter"; "nonlinear_bias_types"]);
  (* pyRSD/rsd/nonlinear_biasing.py:200 *) ("b2_00_d__0", EParam None);
  (* pyRSD/rsd/nonlinear_biasing.py:204 *) ("b2_00_d__2", EParam None);
  (* pyRSD/rsd/nonlinear_biasing.py:208 *) ("b2_00_d__4", EParam None);
  (* pyRSD/rsd/nonlinear_biasing.py:235 *) ("b2_01_a", EProp false ["b2_01_a__0"; "b2_01_a__1"; "b2_01_a__2"; "nonlinear_bias_types"]
      ["b2_01_a__0"; "b2_01_a__1"; "b2_01_a__2"; "nonlinear_bias_fitter"; "nonlinear_bias_types"]);
  (* pyRSD/rsd/nonlinear_biasing.py:223 *) ("b2_01_a__0", EParam None);
  (* pyRSD/rsd/nonlinear_biasing.py:227 *) ("b2_01_a__1", EParam None);
  (* pyRSD/rsd/nonlinear_biasing.py:231 *) ("b2_01_a__2", EParam None);
  (* pyRSD/rsd/nonlinear_biasing.py:258 *) ("b2_01_b", EProp false ["b2_01_b__0"; "b2_01_b__1"; "b2_01_b__2"; "nonlinear_bias_types"]
      ["b2_01_a"; "b2_01_b__0"; "b2_01_b__1"; "b2_01_b__2"; "nonlinear_bias_fitter"; "nonlinear_bias_types"]);
  (* pyRSD/rsd/nonlinear_biasing.py:246 *) ("b2_01_b__0", EParam None);
  (* pyRSD/rsd/nonlinear_biasing.py:250 *) ("b2_01_b__1", EParam None);
  (* pyRSD/rsd/nonlinear_biasing.py:254 *) ("b2_01_b__2", EParam None);
  (* pyRSD/rsd/power/biased/power_biased.py:260 *) ("bias_to_sigma_relation", EProp false []
      ["cosmo"; "interpolate"]);
  (* pyRSD/rsd/power/biased/power_biased.py:240 *) ("bs", EProp false ["_ib1"; "use_tidal_bias"]
      ["_ib1"; "use_tidal_bias"]);
  (* pyRSD/rsd/power/biased/power_biased.py:250 *) ("bs_bar", EProp false ["_ib1_bar"; "use_tidal_bias"]
      ["_ib1_bar"; "use_tidal_bias"]);
  (* pyRSD/rsd/power/dm/power_dm.py:548 *) ("conformalH", EProp false ["z"; "cosmo"]
      ["cosmo"; "z"]);
  (* pyRSD/rsd/power/biased/power_biased.py:103 *) ("correct_mu2", EParam None);
  (* pyRSD/rsd/power/biased/power_biased.py:110 *) ("correct_mu4", EParam None);
  (* pyRSD/rsd/power/dm/power_dm.py:510 *) ("cosmo", EProp false ["params"; "transfer_fit"; "linear_power_file"]
      ["linear_power_file"; "params"; "transfer_fit_int"]);
  (* pyRSD/rsd/power/dm/power_dm.py:299 *) ("cosmo_filename", EParam None);
  (* pyRSD/rsd/power/biased/power_biased.py:210 *) ("cross_stochasticity_fits", EProp false []
      []);
  (* pyRSD/rsd/power/dm/power_dm.py:420 *) ("f", EParam None);
  (* pyRSD/rsd/power/gal/power_gal.py:138 *) ("f_so", EParam None);
  (* pyRSD/rsd/power/gal/power_gal.py:172 *) ("fcB", EParam None);
  (* pyRSD/rsd/power/dm/power_dm.py:496 *) ("fiducial_rs_drag", EProp false ["cosmo"]
      ["cosmo"]);
  (* pyRSD/rsd/power/gal/power_gal.py:153 *) ("fog_model", EParam None);
  (* pyRSD/rsd/power/gal/power_gal.py:165 *) ("fs", EParam None);
  (* pyRSD/rsd/power/gal/power_gal.py:179 *) ("fsB", EParam None);
  (* pyRSD/rsd/power/dm/power_dm.py:653 *) ("hzpt", EProp false ["cosmo"]
      ["cosmo"]);
  (* pyRSD/rsd/power/dm/power_dm.py:348 *) ("include_2loop", EParam None);
  (* pyRSD/rsd/power/dm/power_dm.py:281 *) ("interpolate", EParam None);
  (* pyRSD/rsd/power/dm/power_dm.py:527 *) ("k", EProp false ["Nk"; "kmin"; "kmax"]
      ["Nk"; "kmax"; "kmin"]);
  (* pyRSD/rsd/power/dm/power_dm.py:373 *) ("k0_low", EParam None);
  (* pyRSD/rsd/power/dm/power_dm.py:391 *) ("kmax", EParam None);
  (* pyRSD/rsd/power/dm/power_dm.py:382 *) ("kmin", EParam None);
  (* pyRSD/rsd/power/dm/power_dm.py:330 *) ("linear_power_file", EParam None);
  (* pyRSD/rsd/power/dm/power_dm.py:337 *) ("max_mu", EParam None);
  (* pyRSD/rsd/power/biased/power_biased.py:463 *) ("mu2_model_correction", EProp true ["_ib1"; "_ib1_bar"; "sigma8_z"; "f"; "k"]
      ["Pmu2_correction"; "_ib1"; "_ib1_bar"; "f"; "k"; "sigma8_z"]);
  (* pyRSD/rsd/power/biased/power_biased.py:473 *) ("mu4_model_correction", EProp true ["_ib1"; "_ib1_bar"; "sigma8_z"; "f"; "k"]
      ["Pmu4_correction"; "_ib1"; "_ib1_bar"; "f"; "k"; "sigma8_z"]);
  (* pyRSD/rsd/nonlinear_biasing.py:74 *) ("nonlinear_bias_fitter", EProp false []
      []);
  (* pyRSD/rsd/nonlinear_biasing.py:81 *) ("nonlinear_bias_types", EParam None);
  (* pyRSD/rsd/power/dm/power_dm.py:307 *) ("params", EParam None);
  (* pyRSD/rsd/power/dm/power_dm.py:555 *) ("power_lin", EProp false ["cosmo"]
      ["cosmo"]);
  (* pyRSD/rsd/power/dm/power_dm.py:562 *) ("power_lin_nw", EProp false ["cosmo"]
      ["cosmo"]);
  (* pyRSD/rsd/power/dm/power_dm.py:644 *) ("redshift_params", EParam None);
  (* pyRSD/rsd/power/dm/power_dm.py:407 *) ("sigma8_z", EParam None);
  (* pyRSD/rsd/power/dm/power_dm.py:473 *) ("sigma_bv2", EParam None);
  (* pyRSD/rsd/power/dm/power_dm.py:483 *) ("sigma_bv4", EParam None);
  (* pyRSD/rsd/power/gal/power_gal.py:214 *) ("sigma_c", EParam None);
  (* pyRSD/rsd/power/dm/power_dm.py:580 *) ("sigma_lin", EProp false ["_power_norm"; "_sigma_lin_unnormed"]
      ["_power_norm"; "_sigma_lin_unnormed"]);
  (* pyRSD/rsd/power/gal/power_gal.py:221 *) ("sigma_s", EParam None);
  (* pyRSD/rsd/power/gal/power_gal.py:228 *) ("sigma_sA", EParam None);
  (* pyRSD/rsd/power/gal/power_gal.py:235 *) ("sigma_sB", EParam None);
  (* pyRSD/rsd/power/gal/power_gal.py:145 *) ("sigma_so", EParam None);
  (* pyRSD/rsd/power/dm/power_dm.py:455 *) ("sigma_v", EParam (Some "sigma_lin"));
  (* pyRSD/rsd/power/dm/power_dm.py:463 *) ("sigma_v2", EParam None);
  (* pyRSD/rsd/power/biased/power_biased.py:269 *) ("sigmav_halo", EProp false ["sigma_v"; "sigma_lin"; "vel_disp_from_sims"; "_ib1"; "sigma8_z"]
      ["_ib1"; "sigma8_z"; "sigma_v"; "vel_disp_fitter"; "vel_disp_from_sims"]);
  (* pyRSD/rsd/power/biased/power_biased.py:279 *) ("sigmav_halo_bar", EProp false ["sigma_v"; "sigma_lin"; "vel_disp_from_sims"; "_ib1_bar"; "sigma8_z"]
      ["_ib1_bar"; "sigma8_z"; "sigma_v"; "vel_disp_fitter"; "vel_disp_from_sims"]);
  (* pyRSD/rsd/power/biased/power_biased.py:347 *) ("stochasticity", EProp true ["_ib1"; "_ib1_bar"; "z"; "sigma8_z"; "k"]
      ["_ib1"; "_ib1_bar"; "auto_stochasticity_fits"; "cross_stochasticity_fits"; "k"; "sigma8_z"]);
  (* pyRSD/rsd/power/dm/power_dm.py:289 *) ("transfer_fit", EParam None);
  (* pyRSD/rsd/power/dm/power_dm.py:503 *) ("transfer_fit_int", EProp false ["transfer_fit"]
      ["transfer_fit"]);
  (* pyRSD/rsd/power/dm/power_dm.py:599 *) ("use_P00_model", EParam None);
  (* pyRSD/rsd/power/dm/power_dm.py:606 *) ("use_P01_model", EParam None);
  (* pyRSD/rsd/power/dm/power_dm.py:613 *) ("use_P11_model", EParam None);
  (* pyRSD/rsd/power/dm/power_dm.py:620 *) ("use_Pdv_model", EParam None);
  (* pyRSD/rsd/power/biased/power_biased.py:158 *) ("use_Phm_model", EParam None);
  (* pyRSD/rsd/power/dm/power_dm.py:627 *) ("use_Pvv_model", EParam None);
  (* pyRSD/rsd/power/biased/power_biased.py:117 *) ("use_mean_bias", EParam None);
  (* pyRSD/rsd/power/biased/power_biased.py:151 *) ("use_tidal_bias", EParam None);
  (* pyRSD/rsd/nonlinear_biasing.py:88 *) ("use_vlah_biasing", EParam None);
  (* pyRSD/rsd/power/biased/power_biased.py:182 *) ("vel_disp_fitter", EProp false []
      []);
  (* pyRSD/rsd/power/biased/power_biased.py:142 *) ("vel_disp_from_sims", EParam None);
  (* pyRSD/rsd/pt_integrals.py:435 *) ("velocity_kurtosis", EProp false ["_unnormed_velocity_kurtosis"; "_power_norm"]
      ["_power_norm"; "_unnormed_velocity_kurtosis"]);
  (* pyRSD/rsd/power/biased/power_biased.py:124 *) ("z", EParam None)
].
(** parameters some cached attribute of the class depends on without declaring it *)
Definition gaps_GalaxySpectrum : list string := ["Nk"; "b2_00_a__0"; "b2_00_a__2"; "b2_00_a__4"; "b2_01_a__0"; "b2_01_a__1"; "b2_01_a__2"; "interpolate"; "kmax"; "kmin"; "linear_power_file"; "params"; "transfer_fit"; "use_tidal_bias"].

(** class QuasarSpectrum; MRO: QuasarSpectrum HaloSpectrum BiasedSpectrum DarkMatterSpectrum Cache SimLoaderMixin PTIntegralsMixin NonlinearBiasingMixin *)
Definition tbl_QuasarSpectrum : table := [
  (* pyRSD/rsd/power/dm/power_dm.py:541 *) ("D", EProp false ["z"; "cosmo"]
      ["cosmo"; "z"]);
  (* pyRSD/rsd/power/qso/power_qso.py:168 *) ("FOG", EProp false ["fog_model"]
      ["fog_model"]);
  (* pyRSD/rsd/power/qso/power_qso.py:161 *) ("N", EParam None);
  (* pyRSD/rsd/power/dm/power_dm.py:400 *) ("Nk", EParam None);
  (* pyRSD/rsd/power/dm/power_dm.py:887 *) ("P00", EProp false ["z"; "sigma8_z"; "use_P00_model"; "power_lin"; "P00_mu0_loaded"]
      ["P00_mu0_loaded"; "_power_norm"; "_unnormalized_I00"; "_unnormalized_J00"; "hzpt"; "interpolate"; "power_lin"; "sigma8_z"; "use_P00_model"]);
  (* pyRSD/rsd/sim_loader.py:27 *) ("P00_mu0_loaded", EParam None);
  (* pyRSD/rsd/power/biased/power_biased.py:369 *) ("P00_ss", EProp false ["P00_ss_no_stoch"; "stochasticity"]
      ["P00_ss_no_stoch"; "stochasticity"]);
  (* pyRSD/rsd/power/biased/power_biased.py:378 *) ("P00_ss_no_stoch", EProp false ["P00"; "Phm"; "Phm_bar"]
      ["P00"; "Phm"; "Phm_bar"]);
  (* pyRSD/rsd/power/dm/power_dm.py:897 *) ("P01", EProp false ["f"; "z"; "sigma8_z"; "use_P01_model"; "power_lin"; "max_mu"; "P01_mu2_loaded"]
      ["P01_mu2_loaded"; "_power_norm"; "_unnormalized_I00"; "_unnormalized_J00"; "f"; "hzpt"; "interpolate"; "power_lin"; "sigma8_z"; "use_P01_model"]);
  (* pyRSD/rsd/sim_loader.py:31 *) ("P01_mu2_loaded", EParam None);
  (* pyRSD/rsd/power/biased/power_biased.py:386 *) ("P01_ss", EProp false ["_ib1"; "_ib1_bar"; "max_mu"; "Pdv"; "P01"; "b2_01_a"]
      ["P01"; "Pdv"; "_ib1"; "_ib1_bar"; "_unnormalized_K10"; "_unnormalized_K10s"; "_unnormalized_K11"; "_unnormalized_K11s"; "b2_01_a"; "bs"; "bs_bar"; "f"]);
  (* pyRSD/rsd/power/dm/power_dm.py:919 *) ("P02", EProp false ["f"; "z"; "sigma8_z"; "power_lin"; "max_mu"; "include_2loop"; "sigma_v"; "sigma_bv2"; "P00"]
      ["P00"; "_power_norm"; "_unnormalized_I02"; "_unnormalized_I20"; "_unnormalized_J02"; "_unnormalized_J20"; "conformalH"; "cosmo"; "f"; "include_2loop"; "power_lin"; "sigma_bv2"; "sigma_v"]);
  (* pyRSD/rsd/power/biased/power_biased.py:396 *) ("P02_ss", EProp false ["_ib1"; "_ib1_bar"; "max_mu"; "P02"; "P00"; "sigmav_halo"; "sigmav_halo_bar"; "b2_00_b"; "b2_00_c"]
      ["P00"; "P02"; "_ib1"; "_ib1_bar"; "_unnormalized_K00"; "_unnormalized_K00s"; "_unnormalized_K20_a"; "_unnormalized_K20_b"; "_unnormalized_K20s_a"; "_unnormalized_K20s_b"; "b2_00_b"; "b2_00_c"; "bs"; "bs_bar"; "f"; "sigmav_halo"; "sigmav_halo_bar"]);
  (* pyRSD/rsd/power/dm/power_dm.py:953 *) ("P03", EProp false ["f"; "z"; "sigma8_z"; "power_lin"; "max_mu"; "include_2loop"; "sigma_v"; "sigma_v2"; "P01"]
      ["P01"; "_power_norm"; "conformalH"; "cosmo"; "f"; "include_2loop"; "power_lin"; "sigma_v"; "sigma_v2"]);
  (* pyRSD/rsd/power/biased/power_biased.py:417 *) ("P03_ss", EProp false ["_ib1"; "_ib1_bar"; "max_mu"; "Pdv"; "P01"; "sigmav_halo"; "sigmav_halo_bar"; "b2_01_b"]
      ["P01"; "Pdv"; "_ib1"; "_ib1_bar"; "_unnormalized_K10"; "_unnormalized_K10s"; "_unnormalized_K11"; "_unnormalized_K11s"; "b2_01_b"; "bs"; "bs_bar"; "f"; "sigmav_halo"; "sigmav_halo_bar"]);
  (* pyRSD/rsd/power/dm/power_dm.py:974 *) ("P04", EProp false ["f"; "z"; "sigma8_z"; "power_lin"; "max_mu"; "include_2loop"; "sigma_v"; "sigma_bv4"; "P02"; "P00"]
      ["P00"; "P02"; "conformalH"; "cosmo"; "f"; "include_2loop"; "sigma_bv4"; "sigma_v"; "velocity_kurtosis"]);
  (* pyRSD/rsd/power/biased/power_biased.py:454 *) ("P04_ss", EProp false ["_ib1"; "_ib1_bar"; "P00"; "P02"; "sigmav_halo"; "sigmav_halo_bar"; "b2_00_d"]
      ["P00"; "P02"; "_ib1"; "_ib1_bar"; "_unnormalized_K00"; "_unnormalized_K00s"; "b2_00_d"; "bs"; "bs_bar"; "f"; "sigmav_halo"; "sigmav_halo_bar"; "velocity_kurtosis"]);
  (* pyRSD/rsd/power/dm/power_dm.py:907 *) ("P11", EProp false ["f"; "z"; "sigma8_z"; "use_P11_model"; "power_lin"; "max_mu"; "include_2loop"; "P11_mu2_loaded"; "P11_mu4_loaded"]
      ["P11_mu2_loaded"; "P11_mu4_loaded"; "_power_norm"; "_unnormalized_I11"; "_unnormalized_I13"; "_unnormalized_I22"; "_unnormalized_I31"; "_unnormalized_Idvdv_h03"; "_unnormalized_Idvdv_h04"; "_unnormalized_Ivvdd_h01"; "_unnormalized_Ivvdd_h02"; "_unnormalized_J10"; "_unnormalized_J11"; "f"; "hzpt"; "include_2loop"; "interpolate"; "power_lin"; "sigma8_z"; "use_P11_model"]);
  (* pyRSD/rsd/sim_loader.py:35 *) ("P11_mu2_loaded", EParam None);
  (* pyRSD/rsd/sim_loader.py:39 *) ("P11_mu4_loaded", EParam None);
  (* pyRSD/rsd/power/dm/power_dm.py:661 *) ("P11_sim_model", EProp false ["power_lin"]
      ["power_lin"]);
  (* pyRSD/rsd/power/biased/power_biased.py:405 *) ("P11_ss", EProp false ["_ib1"; "_ib1_bar"; "max_mu"; "P11"; "Pvv"]
      ["P11"; "Pvv"; "_ib1"; "_ib1_bar"; "_power_norm"; "_unnormalized_I22"; "_unnormalized_Idvdv_h03"; "_unnormalized_Idvdv_h04"; "_unnormalized_Ivvdd_h01"; "_unnormalized_Ivvdd_h02"; "_unnormalized_J10"; "f"; "power_lin"]);
  (* pyRSD/rsd/power/dm/power_dm.py:930 *) ("P12", EProp false ["f"; "z"; "sigma8_z"; "power_lin"; "max_mu"; "include_2loop"; "sigma_v"; "sigma_bv2"; "P01"]
      ["P01"; "_power_norm"; "_unnormalized_I03"; "_unnormalized_I12"; "_unnormalized_I21"; "_unnormalized_I30"; "_unnormalized_J02"; "_unnormalized_J20"; "conformalH"; "cosmo"; "f"; "include_2loop"; "power_lin"; "sigma_bv2"; "sigma_v"]);
  (* pyRSD/rsd/power/biased/power_biased.py:426 *) ("P12_ss", EProp false ["_ib1"; "_ib1_bar"; "max_mu"; "Pdv"; "P01"; "P12"; "sigmav_halo"; "sigmav_halo_bar"; "b2_01_b"]
      ["P01"; "P12"; "Pdv"; "_ib1"; "_ib1_bar"; "_power_norm"; "_unnormalized_I03"; "_unnormalized_I21"; "_unnormalized_I30"; "_unnormalized_J20"; "_unnormalized_K10"; "_unnormalized_K10s"; "_unnormalized_K11"; "_unnormalized_K11s"; "b2_01_b"; "bs"; "bs_bar"; "f"; "power_lin"; "sigmav_halo"; "sigmav_halo_bar"]);
  (* pyRSD/rsd/power/dm/power_dm.py:963 *) ("P13", EProp false ["f"; "z"; "sigma8_z"; "power_lin"; "max_mu"; "include_2loop"; "sigma_v"; "sigma_bv2"; "sigma_v2"; "P11"]
      ["P11"; "conformalH"; "cosmo"; "f"; "include_2loop"; "sigma_bv2"; "sigma_v"; "sigma_v2"]);
  (* pyRSD/rsd/power/biased/power_biased.py:435 *) ("P13_ss", EProp false ["P11_ss"; "sigmav_halo"; "sigmav_halo_bar"]
      ["P11_ss"; "_ib1"; "_ib1_bar"; "f"; "sigmav_halo"; "sigmav_halo_bar"]);
  (* pyRSD/rsd/power/dm/power_dm.py:942 *) ("P22", EProp false ["f"; "z"; "sigma8_z"; "power_lin"; "max_mu"; "include_2loop"; "sigma_v"; "sigma_bv2"; "P00"; "P02"]
      ["P00"; "P02"; "_power_norm"; "_unnormalized_I23"; "_unnormalized_I32"; "_unnormalized_Ivvvv_f23"; "_unnormalized_Ivvvv_f32"; "_unnormalized_J02"; "_unnormalized_J20"; "_unnormalized_sigmasq_k"; "conformalH"; "cosmo"; "f"; "include_2loop"; "power_lin"; "sigma_bv2"; "sigma_v"]);
  (* pyRSD/rsd/power/biased/power_biased.py:444 *) ("P22_ss", EProp false ["_ib1"; "_ib1_bar"; "P00"; "P02"; "P22"; "sigmav_halo"; "sigmav_halo_bar"; "b2_00_d"]
      ["P00"; "P02"; "P22"; "Pdd"; "_ib1"; "_ib1_bar"; "_power_norm"; "_unnormalized_K00"; "_unnormalized_K00s"; "_unnormalized_sigmasq_k"; "b2_00_d"; "bs"; "bs_bar"; "f"; "sigmav_halo"; "sigmav_halo_bar"]);
  (* pyRSD/rsd/power/qso/power_qso.py:227 *) ("P_mu0", EProp true ["k"; "sigma8_z"; "_power_norm"; "btot"]
      ["_power_norm"; "btot"; "power_lin"]);
  (* pyRSD/rsd/power/qso/power_qso.py:234 *) ("P_mu2", EProp true ["k"; "sigma8_z"; "f"; "_power_norm"; "btot"]
      ["_power_norm"; "btot"; "f"; "power_lin"]);
  (* pyRSD/rsd/power/qso/power_qso.py:241 *) ("P_mu4", EProp true ["k"; "sigma8_z"; "f"; "_power_norm"]
      ["_power_norm"; "f"; "power_lin"]);
  (* pyRSD/rsd/power/qso/power_qso.py:248 *) ("P_mu6", EProp true []
      ["k"]);
  (* pyRSD/rsd/power/dm/power_dm.py:849 *) ("Pdd", EProp true ["z"; "_power_norm"; "k"]
      ["_Pdd_0"; "_power_norm"; "k"; "power_lin"]);
  (* pyRSD/rsd/power/dm/power_dm.py:857 *) ("Pdv", EProp true ["f"; "z"; "_power_norm"; "use_Pdv_model"; "Pdv_model_type"; "Pdv_loaded"; "k"]
      ["D"; "Pdv_loaded"; "Pdv_model_type"; "Pdv_sim_model"; "_Pdv_0"; "_power_norm"; "f"; "hzpt"; "interpolate"; "k"; "power_lin"; "sigma8_z"; "use_Pdv_model"; "z"]);
  (* pyRSD/rsd/sim_loader.py:23 *) ("Pdv_loaded", EParam None);
  (* pyRSD/rsd/power/dm/power_dm.py:634 *) ("Pdv_model_type", EParam None);
  (* pyRSD/rsd/power/dm/power_dm.py:669 *) ("Pdv_sim_model", EProp false ["power_lin"]
      ["power_lin"]);
  (* pyRSD/rsd/power/biased/power_biased.py:311 *) ("Phm", EProp true ["_ib1"; "P00"; "use_Phm_model"; "sigma8_z"; "b2_00_a"; "k"]
      ["P00"; "_ib1"; "_unnormalized_K00"; "_unnormalized_K00s"; "b2_00_a"; "bs"; "hzpt"; "interpolate"; "k"; "sigma8_z"; "use_Phm_model"]);
  (* pyRSD/rsd/power/biased/power_biased.py:329 *) ("Phm_bar", EProp true ["_ib1_bar"; "P00"; "use_Phm_model"; "sigma8_z"; "b2_00_a"; "k"]
      ["P00"; "_ib1_bar"; "_unnormalized_K00"; "_unnormalized_K00s"; "b2_00_a"; "bs_bar"; "hzpt"; "interpolate"; "k"; "sigma8_z"; "use_Phm_model"]);
  (* pyRSD/rsd/power/biased/power_biased.py:189 *) ("Pmu2_correction", EProp false []
      []);
  (* pyRSD/rsd/power/biased/power_biased.py:196 *) ("Pmu4_correction", EProp false []
      []);
  (* pyRSD/rsd/power/dm/power_dm.py:876 *) ("Pvv", EProp true ["f"; "z"; "_power_norm"; "use_Pvv_model"; "k"]
      ["D"; "_Pvv_0"; "_power_norm"; "f"; "hzpt"; "interpolate"; "k"; "power_lin"; "sigma8_z"; "use_Pvv_model"]);
  (* pyRSD/rsd/pt_integrals.py:94 *) ("_Imn", EProp false ["power_lin"]
      ["power_lin"]);
  (* pyRSD/rsd/pt_integrals.py:115 *) ("_Imn1Loop_dvdv", EProp false ["_Pdv_0"]
      ["_Pdv_0"]);
  (* pyRSD/rsd/pt_integrals.py:123 *) ("_Imn1Loop_vvdd", EProp false ["_Pvv_0"; "_Pdd_0"]
      ["_Pdd_0"; "_Pvv_0"]);
  (* pyRSD/rsd/pt_integrals.py:131 *) ("_Imn1Loop_vvvv", EProp false ["_Pvv_0"]
      ["_Pvv_0"]);
  (* pyRSD/rsd/pt_integrals.py:101 *) ("_Jmn", EProp false ["power_lin"]
      ["power_lin"]);
  (* pyRSD/rsd/pt_integrals.py:108 *) ("_Kmn", EProp false ["power_lin"]
      ["power_lin"]);
  (* pyRSD/rsd/pt_integrals.py:84 *) ("_P22bar_0", EProp false ["power_lin"]
      ["power_lin"]);
  (* pyRSD/rsd/pt_integrals.py:63 *) ("_Pdd_0", EProp false ["power_lin"]
      ["power_lin"]);
  (* pyRSD/rsd/pt_integrals.py:70 *) ("_Pdv_0", EProp false ["power_lin"]
      ["power_lin"]);
  (* pyRSD/rsd/pt_integrals.py:77 *) ("_Pvv_0", EProp false ["power_lin"]
      ["power_lin"]);
  (* pyRSD/rsd/power/biased/power_biased.py:220 *) ("_ib1", EProp false ["use_mean_bias"; "b1"; "b1_bar"]
      ["b1"; "b1_bar"; "use_mean_bias"]);
  (* pyRSD/rsd/power/biased/power_biased.py:230 *) ("_ib1_bar", EProp false ["use_mean_bias"; "b1"; "b1_bar"]
      ["b1"; "b1_bar"; "use_mean_bias"]);
  (* pyRSD/rsd/power/dm/power_dm.py:571 *) ("_power_norm", EProp false ["sigma8_z"; "cosmo"]
      ["cosmo"; "sigma8_z"]);
  (* pyRSD/rsd/power/dm/power_dm.py:588 *) ("_sigma_lin_unnormed", EProp false ["power_lin"]
      ["power_lin"]);
  (* pyRSD/rsd/pt_integrals.py:181 *) ("_unnormalized_I00", EProp true ["_Imn"]
      ["_Imn"]);
  (* pyRSD/rsd/pt_integrals.py:187 *) ("_unnormalized_I01", EProp true ["_Imn"]
      ["_Imn"]);
  (* pyRSD/rsd/pt_integrals.py:193 *) ("_unnormalized_I02", EProp true ["_Imn"]
      ["_Imn"]);
  (* pyRSD/rsd/pt_integrals.py:199 *) ("_unnormalized_I03", EProp true ["_Imn"]
      ["_Imn"]);
  (* pyRSD/rsd/pt_integrals.py:205 *) ("_unnormalized_I10", EProp true ["_Imn"]
      ["_Imn"]);
  (* pyRSD/rsd/pt_integrals.py:211 *) ("_unnormalized_I11", EProp true ["_Imn"]
      ["_Imn"]);
  (* pyRSD/rsd/pt_integrals.py:217 *) ("_unnormalized_I12", EProp true ["_Imn"]
      ["_Imn"]);
  (* pyRSD/rsd/pt_integrals.py:223 *) ("_unnormalized_I13", EProp true ["_Imn"]
      ["_Imn"]);
  (* pyRSD/rsd/pt_integrals.py:229 *) ("_unnormalized_I20", EProp true ["_Imn"]
      ["_Imn"]);
  (* pyRSD/rsd/pt_integrals.py:235 *) ("_unnormalized_I21", EProp true ["_Imn"]
      ["_Imn"]);
  (* pyRSD/rsd/pt_integrals.py:241 *) ("_unnormalized_I22", EProp true ["_Imn"]
      ["_Imn"]);
  (* pyRSD/rsd/pt_integrals.py:247 *) ("_unnormalized_I23", EProp true ["_Imn"]
      ["_Imn"]);
  (* pyRSD/rsd/pt_integrals.py:253 *) ("_unnormalized_I30", EProp true ["_Imn"]
      ["_Imn"]);
  (* pyRSD/rsd/pt_integrals.py:259 *) ("_unnormalized_I31", EProp true ["_Imn"]
      ["_Imn"]);
  (* pyRSD/rsd/pt_integrals.py:265 *) ("_unnormalized_I32", EProp true ["_Imn"]
      ["_Imn"]);
  (* pyRSD/rsd/pt_integrals.py:271 *) ("_unnormalized_I33", EProp true ["_Imn"]
      ["_Imn"]);
  (* pyRSD/rsd/pt_integrals.py:380 *) ("_unnormalized_Idvdv_h03", EProp true ["_Imn1Loop_dvdv"]
      ["_Imn1Loop_dvdv"]);
  (* pyRSD/rsd/pt_integrals.py:389 *) ("_unnormalized_Idvdv_h04", EProp true ["_Imn1Loop_dvdv"]
      ["_Imn1Loop_dvdv"]);
  (* pyRSD/rsd/pt_integrals.py:362 *) ("_unnormalized_Ivvdd_h01", EProp true ["_Imn1Loop_vvdd"]
      ["_Imn1Loop_vvdd"]);
  (* pyRSD/rsd/pt_integrals.py:371 *) ("_unnormalized_Ivvdd_h02", EProp true ["_Imn1Loop_vvdd"]
      ["_Imn1Loop_vvdd"]);
  (* pyRSD/rsd/pt_integrals.py:398 *) ("_unnormalized_Ivvvv_f23", EProp true ["_Imn1Loop_vvvv"]
      ["_Imn1Loop_vvvv"]);
  (* pyRSD/rsd/pt_integrals.py:407 *) ("_unnormalized_Ivvvv_f32", EProp true ["_Imn1Loop_vvvv"]
      ["_Imn1Loop_vvvv"]);
  (* pyRSD/rsd/pt_integrals.py:416 *) ("_unnormalized_Ivvvv_f33", EProp true ["_Imn1Loop_vvvv"]
      ["_Imn1Loop_vvvv"]);
  (* pyRSD/rsd/pt_integrals.py:142 *) ("_unnormalized_J00", EProp true ["_Jmn"]
      ["_Jmn"]);
  (* pyRSD/rsd/pt_integrals.py:148 *) ("_unnormalized_J01", EProp true ["_Jmn"]
      ["_Jmn"]);
  (* pyRSD/rsd/pt_integrals.py:166 *) ("_unnormalized_J02", EProp true ["_Jmn"]
      ["_Jmn"]);
  (* pyRSD/rsd/pt_integrals.py:154 *) ("_unnormalized_J10", EProp true ["_Jmn"]
      ["_Jmn"]);
  (* pyRSD/rsd/pt_integrals.py:160 *) ("_unnormalized_J11", EProp true ["_Jmn"]
      ["_Jmn"]);
  (* pyRSD/rsd/pt_integrals.py:172 *) ("_unnormalized_J20", EProp true ["_Jmn"]
      ["_Jmn"]);
  (* pyRSD/rsd/pt_integrals.py:280 *) ("_unnormalized_K00", EProp true ["_Kmn"]
      ["_Kmn"]);
  (* pyRSD/rsd/pt_integrals.py:286 *) ("_unnormalized_K00s", EProp true ["_Kmn"]
      ["_Kmn"]);
  (* pyRSD/rsd/pt_integrals.py:292 *) ("_unnormalized_K01", EProp true ["_Kmn"]
      ["_Kmn"]);
  (* pyRSD/rsd/pt_integrals.py:298 *) ("_unnormalized_K01s", EProp true ["_Kmn"]
      ["_Kmn"]);
  (* pyRSD/rsd/pt_integrals.py:304 *) ("_unnormalized_K02s", EProp true ["_Kmn"]
      ["_Kmn"]);
  (* pyRSD/rsd/pt_integrals.py:310 *) ("_unnormalized_K10", EProp true ["_Kmn"]
      ["_Kmn"]);
  (* pyRSD/rsd/pt_integrals.py:317 *) ("_unnormalized_K10s", EProp true ["_Kmn"]
      ["_Kmn"]);
  (* pyRSD/rsd/pt_integrals.py:323 *) ("_unnormalized_K11", EProp true ["_Kmn"]
      ["_Kmn"]);
  (* pyRSD/rsd/pt_integrals.py:329 *) ("_unnormalized_K11s", EProp true ["_Kmn"]
      ["_Kmn"]);
  (* pyRSD/rsd/pt_integrals.py:335 *) ("_unnormalized_K20_a", EProp true ["_Kmn"]
      ["_Kmn"]);
  (* pyRSD/rsd/pt_integrals.py:341 *) ("_unnormalized_K20_b", EProp true ["_Kmn"]
      ["_Kmn"]);
  (* pyRSD/rsd/pt_integrals.py:347 *) ("_unnormalized_K20s_a", EProp true ["_Kmn"]
      ["_Kmn"]);
  (* pyRSD/rsd/pt_integrals.py:353 *) ("_unnormalized_K20s_b", EProp true ["_Kmn"]
      ["_Kmn"]);
  (* pyRSD/rsd/pt_integrals.py:443 *) ("_unnormalized_sigmasq_k", EProp true ["power_lin"]
      ["power_lin"]);
  (* pyRSD/rsd/pt_integrals.py:428 *) ("_unnormed_velocity_kurtosis", EProp false ["_P22bar_0"]
      ["_P22bar_0"]);
  (* pyRSD/rsd/power/dm/power_dm.py:447 *) ("alpha_drag", EParam None);
  (* pyRSD/rsd/power/dm/power_dm.py:439 *) ("alpha_par", EParam None);
  (* pyRSD/rsd/power/dm/power_dm.py:431 *) ("alpha_perp", EParam None);
  (* pyRSD/rsd/power/qso/power_qso.py:185 *) ("alpha_png", EProp true ["k"; "cosmo"; "D"]
      ["D"; "_power_norm"; "cosmo"; "power_lin"]);
  (* pyRSD/rsd/power/biased/power_biased.py:203 *) ("auto_stochasticity_fits", EProp false []
      []);
  (* pyRSD/rsd/power/biased/power_biased.py:165 *) ("b1", EParam None);
  (* pyRSD/rsd/power/biased/power_halo.py:12 *) ("b1_bar", EProp false ["b1"]
      ["b1"]);
  (* pyRSD/rsd/nonlinear_biasing.py:143 *) ("b2_00_a", EProp false ["b2_00_a__0"; "b2_00_a__2"; "b2_00_a__4"; "nonlinear_bias_types"]
      ["b2_00_a__0"; "b2_00_a__2"; "b2_00_a__4"; "nonlinear_bias_fitter"; "nonlinear_bias_types"]);
  (* pyRSD/rsd/nonlinear_biasing.py:131 *) ("b2_00_a__0", EParam None);
  (* pyRSD/rsd/nonlinear_biasing.py:135 *) ("b2_00_a__2", EParam None);
  (* pyRSD/rsd/nonlinear_biasing.py:139 *) ("b2_00_a__4", EParam None);
  (* pyRSD/rsd/nonlinear_biasing.py:166 *) ("b2_00_b", EProp false ["b2_00_b__0"; "b2_00_b__2"; "b2_00_b__4"; "nonlinear_bias_types"]
      ["b2_00_a"; "b2_00_b__0"; "b2_00_b__2"; "b2_00_b__4"; "nonlinear_bias_fitter"; "nonlinear_bias_types"]);
  (* pyRSD/rsd/nonlinear_biasing.py:154 *) ("b2_00_b__0", EParam None);
  (* pyRSD/rsd/nonlinear_biasing.py:158 *) ("b2_00_b__2", EParam None);
  (* pyRSD/rsd/nonlinear_biasing.py:162 *) ("b2_00_b__4", EParam None);
  (* pyRSD/rsd/nonlinear_biasing.py:189 *) ("b2_00_c", EProp false ["b2_00_c__0"; "b2_00_c__2"; "b2_00_c__4"; "nonlinear_bias_types"]
      ["b2_00_a"; "b2_00_c__0"; "b2_00_c__2"; "b2_00_c__4"; "nonlinear_bias_fitter"; "nonlinear_bias_types"]);
  (* pyRSD/rsd/nonlinear_biasing.py:177 *) ("b2_00_c__0", EParam None);
  (* pyRSD/rsd/nonlinear_biasing.py:181 *) ("b2_00_c__2", EParam None);
  (* pyRSD/rsd/nonlinear_biasing.py:185 *) ("b2_00_c__4", EParam None);
  (* pyRSD/rsd/nonlinear_biasing.py:212 *) ("b2_00_d", EProp false ["b2_00_d__0"; "b2_00_d__2"; "b2_00_d__4"; "nonlinear_bias_types"]
      ["b2_00_a"; "b2_00_d__0"; "b2_00_d__2"; "b2_00_d__4"; "nonlinear_bias_fitter"; "nonlinear_bias_types"]);
  (* pyRSD/rsd/nonlinear_biasing.py:200 *) ("b2_00_d__0", EParam None);
  (* pyRSD/rsd/nonlinear_biasing.py:204 *) ("b2_00_d__2", EParam None);
  (* pyRSD/rsd/nonlinear_biasing.py:208 *) ("b2_00_d__4", EParam None);
  (* pyRSD/rsd/nonlinear_biasing.py:235 *) ("b2_01_a", EProp false ["b2_01_a__0"; "b2_01_a__1"; "b2_01_a__2"; "nonlinear_bias_types"]
      ["b2_01_a__0"; "b2_01_a__1"; "b2_01_a__2"; "nonlinear_bias_fitter"; "nonlinear_bias_types"]);
  (* pyRSD/rsd/nonlinear_biasing.py:223 *) ("b2_01_a__0", EParam None);
  (* pyRSD/rsd/nonlinear_biasing.py:227 *) ("b2_01_a__1", EParam None);
  (* pyRSD/rsd/nonlinear_biasing.py:231 *) ("b2_01_a__2", EParam None);
  (* pyRSD/rsd/nonlinear_biasing.py:258 *) ("b2_01_b", EProp false ["b2_01_b__0"; "b2_01_b__1"; "b2_01_b__2"; "nonlinear_bias_types"]
      ["b2_01_a"; "b2_01_b__0"; "b2_01_b__1"; "b2_01_b__2"; "nonlinear_bias_fitter"; "nonlinear_bias_types"]);
  (* pyRSD/rsd/nonlinear_biasing.py:246 *) ("b2_01_b__0", EParam None);
  (* pyRSD/rsd/nonlinear_biasing.py:250 *) ("b2_01_b__1", EParam None);
  (* pyRSD/rsd/nonlinear_biasing.py:254 *) ("b2_01_b__2", EParam None);
  (* pyRSD/rsd/power/biased/power_biased.py:260 *) ("bias_to_sigma_relation", EProp false []
      ["cosmo"; "interpolate"]);
  (* pyRSD/rsd/power/biased/power_biased.py:240 *) ("bs", EProp false ["_ib1"; "use_tidal_bias"]
      ["_ib1"; "use_tidal_bias"]);
  (* pyRSD/rsd/power/biased/power_halo.py:19 *) ("bs_bar", EProp false ["bs"]
      ["bs"]);
  (* pyRSD/rsd/power/qso/power_qso.py:216 *) ("btot", EProp true ["k"; "b1"; "delta_bias"]
      ["b1"; "delta_bias"]);
  (* pyRSD/rsd/power/dm/power_dm.py:548 *) ("conformalH", EProp false ["z"; "cosmo"]
      ["cosmo"; "z"]);
  (* pyRSD/rsd/power/biased/power_biased.py:103 *) ("correct_mu2", EParam None);
  (* pyRSD/rsd/power/biased/power_biased.py:110 *) ("correct_mu4", EParam None);
  (* pyRSD/rsd/power/dm/power_dm.py:510 *) ("cosmo", EProp false ["params"; "transfer_fit"; "linear_power_file"]
      ["linear_power_file"; "params"; "transfer_fit_int"]);
  (* pyRSD/rsd/power/dm/power_dm.py:299 *) ("cosmo_filename", EParam None);
  (* pyRSD/rsd/power/biased/power_biased.py:210 *) ("cross_stochasticity_fits", EProp false []
      []);
  (* pyRSD/rsd/power/qso/power_qso.py:206 *) ("delta_bias", EProp true ["k"; "b1"; "f_nl"; "p"]
      ["alpha_png"; "b1"; "delta_crit"; "f_nl"; "p"]);
  (* pyRSD/rsd/power/qso/power_qso.py:178 *) ("delta_crit", EProp false []
      []);
  (* pyRSD/rsd/power/dm/power_dm.py:420 *) ("f", EParam None);
  (* pyRSD/rsd/power/qso/power_qso.py:154 *) ("f_nl", EParam None);
  (* pyRSD/rsd/power/dm/power_dm.py:496 *) ("fiducial_rs_drag", EProp false ["cosmo"]
      ["cosmo"]);
  (* pyRSD/rsd/power/qso/power_qso.py:122 *) ("fog_model", EParam None);
  (* pyRSD/rsd/power/dm/power_dm.py:653 *) ("hzpt", EProp false ["cosmo"]
      ["cosmo"]);
  (* pyRSD/rsd/power/dm/power_dm.py:348 *) ("include_2loop", EParam None);
  (* pyRSD/rsd/power/dm/power_dm.py:281 *) ("interpolate", EParam None);
  (* pyRSD/rsd/power/qso/power_qso.py:82 *) ("k", EProp false ["Nk"; "kmin"; "kmax"]
      ["Nk"; "kmax"; "kmin"]);
  (* pyRSD/rsd/power/dm/power_dm.py:373 *) ("k0_low", EParam None);
  (* pyRSD/rsd/power/qso/power_qso.py:98 *) ("kmax", EParam None);
  (* pyRSD/rsd/power/qso/power_qso.py:91 *) ("kmin", EParam None);
  (* pyRSD/rsd/power/dm/power_dm.py:330 *) ("linear_power_file", EParam None);
  (* pyRSD/rsd/power/dm/power_dm.py:337 *) ("max_mu", EParam None);
  (* pyRSD/rsd/power/biased/power_biased.py:463 *) ("mu2_model_correction", EProp true ["_ib1"; "_ib1_bar"; "sigma8_z"; "f"; "k"]
      ["Pmu2_correction"; "_ib1"; "_ib1_bar"; "f"; "k"; "sigma8_z"]);
  (* pyRSD/rsd/power/biased/power_biased.py:473 *) ("mu4_model_correction", EProp true ["_ib1"; "_ib1_bar"; "sigma8_z"; "f"; "k"]
      ["Pmu4_correction"; "_ib1"; "_ib1_bar"; "f"; "k"; "sigma8_z"]);
  (* pyRSD/rsd/nonlinear_biasing.py:74 *) ("nonlinear_bias_fitter", EProp false []
      []);
  (* pyRSD/rsd/nonlinear_biasing.py:81 *) ("nonlinear_bias_types", EParam None);
  (* pyRSD/rsd/power/qso/power_qso.py:141 *) ("p", EParam None);
  (* pyRSD/rsd/power/dm/power_dm.py:307 *) ("params", EParam None);
  (* pyRSD/rsd/power/dm/power_dm.py:555 *) ("power_lin", EProp false ["cosmo"]
      ["cosmo"]);
  (* pyRSD/rsd/power/dm/power_dm.py:562 *) ("power_lin_nw", EProp false ["cosmo"]
      ["cosmo"]);
  (* pyRSD/rsd/power/dm/power_dm.py:644 *) ("redshift_params", EParam None);
  (* pyRSD/rsd/power/dm/power_dm.py:407 *) ("sigma8_z", EParam None);
  (* pyRSD/rsd/power/dm/power_dm.py:473 *) ("sigma_bv2", EParam None);
  (* pyRSD/rsd/power/dm/power_dm.py:483 *) ("sigma_bv4", EParam None);
  (* pyRSD/rsd/power/qso/power_qso.py:134 *) ("sigma_fog", EParam None);
  (* pyRSD/rsd/power/dm/power_dm.py:580 *) ("sigma_lin", EProp false ["_power_norm"; "_sigma_lin_unnormed"]
      ["_power_norm"; "_sigma_lin_unnormed"]);
  (* pyRSD/rsd/power/dm/power_dm.py:455 *) ("sigma_v", EParam (Some "sigma_lin"));
  (* pyRSD/rsd/power/dm/power_dm.py:463 *) ("sigma_v2", EParam None);
  (* pyRSD/rsd/power/biased/power_biased.py:269 *) ("sigmav_halo", EProp false ["sigma_v"; "sigma_lin"; "vel_disp_from_sims"; "_ib1"; "sigma8_z"]
      ["_ib1"; "sigma8_z"; "sigma_v"; "vel_disp_fitter"; "vel_disp_from_sims"]);
  (* pyRSD/rsd/power/biased/power_biased.py:279 *) ("sigmav_halo_bar", EProp false ["sigma_v"; "sigma_lin"; "vel_disp_from_sims"; "_ib1_bar"; "sigma8_z"]
      ["_ib1_bar"; "sigma8_z"; "sigma_v"; "vel_disp_fitter"; "vel_disp_from_sims"]);
  (* pyRSD/rsd/power/biased/power_biased.py:347 *) ("stochasticity", EProp true ["_ib1"; "_ib1_bar"; "z"; "sigma8_z"; "k"]
      ["_ib1"; "_ib1_bar"; "auto_stochasticity_fits"; "cross_stochasticity_fits"; "k"; "sigma8_z"]);
  (* pyRSD/rsd/power/dm/power_dm.py:289 *) ("transfer_fit", EParam None);
  (* pyRSD/rsd/power/dm/power_dm.py:503 *) ("transfer_fit_int", EProp false ["transfer_fit"]
      ["transfer_fit"]);
  (* pyRSD/rsd/power/dm/power_dm.py:599 *) ("use_P00_model", EParam None);
  (* pyRSD/rsd/power/dm/power_dm.py:606 *) ("use_P01_model", EParam None);
  (* pyRSD/rsd/power/dm/power_dm.py:613 *) ("use_P11_model", EParam None);
  (* pyRSD/rsd/power/dm/power_dm.py:620 *) ("use_Pdv_model", EParam None);
  (* pyRSD/rsd/power/biased/power_biased.py:158 *) ("use_Phm_model", EParam None);
  (* pyRSD/rsd/power/dm/power_dm.py:627 *) ("use_Pvv_model", EParam None);
  (* pyRSD/rsd/power/biased/power_biased.py:117 *) ("use_mean_bias", EParam None);
  (* pyRSD/rsd/power/biased/power_biased.py:151 *) ("use_tidal_bias", EParam None);
  (* pyRSD/rsd/nonlinear_biasing.py:88 *) ("use_vlah_biasing", EParam None);
  (* pyRSD/rsd/power/biased/power_biased.py:182 *) ("vel_disp_fitter", EProp false []
      []);
  (* pyRSD/rsd/power/biased/power_biased.py:142 *) ("vel_disp_from_sims", EParam None);
  (* pyRSD/rsd/pt_integrals.py:435 *) ("velocity_kurtosis", EProp false ["_unnormed_velocity_kurtosis"; "_power_norm"]
      ["_power_norm"; "_unnormed_velocity_kurtosis"]);
  (* pyRSD/rsd/power/biased/power_biased.py:124 *) ("z", EParam None)
].
(** parameters some cached attribute of the class depends on without declaring it *)
Definition gaps_QuasarSpectrum : list string := ["Nk"; "b2_00_a__0"; "b2_00_a__2"; "b2_00_a__4"; "b2_01_a__0"; "b2_01_a__1"; "b2_01_a__2"; "interpolate"; "kmax"; "kmin"; "linear_power_file"; "params"; "sigma8_z"; "transfer_fit"; "use_tidal_bias"; "z"].

(** class HaloZeldovichP00; MRO: HaloZeldovichP00 HaloZeldovichBase Cache *)
Definition tbl_HaloZeldovichP00 : table := [
  (* pyRSD/rsd/hzpt/__init__.py:186 *) ("A0", EProp false ["sigma8_z"; "_A0_amp"; "_A0_alpha"]
      ["_A0_alpha"; "_A0_amp"; "sigma8_z"]);
  (* pyRSD/rsd/hzpt/__init__.py:195 *) ("R", EProp false ["sigma8_z"; "_R_amp"; "_R_alpha"]
      ["_R_alpha"; "_R_amp"; "sigma8_z"]);
  (* pyRSD/rsd/hzpt/__init__.py:204 *) ("R1", EProp false ["sigma8_z"; "_R1_amp"; "_R1_alpha"]
      ["_R1_alpha"; "_R1_amp"; "sigma8_z"]);
  (* pyRSD/rsd/hzpt/__init__.py:213 *) ("R1h", EProp false ["sigma8_z"; "_R1h_amp"; "_R1h_alpha"]
      ["_R1h_alpha"; "_R1h_amp"; "sigma8_z"]);
  (* pyRSD/rsd/hzpt/__init__.py:222 *) ("R2h", EProp false ["sigma8_z"; "_R2h_amp"; "_R2h_alpha"]
      ["_R2h_alpha"; "_R2h_amp"; "sigma8_z"]);
  (* pyRSD/rsd/hzpt/__init__.py:147 *) ("_A0_alpha", EParam None);
  (* pyRSD/rsd/hzpt/__init__.py:143 *) ("_A0_amp", EParam None);
  (* pyRSD/rsd/hzpt/__init__.py:163 *) ("_R1_alpha", EParam None);
  (* pyRSD/rsd/hzpt/__init__.py:159 *) ("_R1_amp", EParam None);
  (* pyRSD/rsd/hzpt/__init__.py:171 *) ("_R1h_alpha", EParam None);
  (* pyRSD/rsd/hzpt/__init__.py:167 *) ("_R1h_amp", EParam None);
  (* pyRSD/rsd/hzpt/__init__.py:179 *) ("_R2h_alpha", EParam None);
  (* pyRSD/rsd/hzpt/__init__.py:175 *) ("_R2h_amp", EParam None);
  (* pyRSD/rsd/hzpt/__init__.py:155 *) ("_R_alpha", EParam None);
  (* pyRSD/rsd/hzpt/__init__.py:151 *) ("_R_amp", EParam None);
  (* pyRSD/rsd/hzpt/__init__.py:110 *) ("cosmo", EParam None);
  (* pyRSD/rsd/hzpt/__init__.py:131 *) ("sigma8_z", EParam None)
].
(** parameters some cached attribute of the class depends on without declaring it *)
Definition gaps_HaloZeldovichP00 : list string := [].

(** class HaloZeldovichP01; MRO: HaloZeldovichP01 HaloZeldovichBase Cache *)
Definition tbl_HaloZeldovichP01 : table := [
  (* pyRSD/rsd/hzpt/__init__.py:186 *) ("A0", EProp false ["sigma8_z"; "_A0_amp"; "_A0_alpha"]
      ["_A0_alpha"; "_A0_amp"; "sigma8_z"]);
  (* pyRSD/rsd/hzpt/__init__.py:195 *) ("R", EProp false ["sigma8_z"; "_R_amp"; "_R_alpha"]
      ["_R_alpha"; "_R_amp"; "sigma8_z"]);
  (* pyRSD/rsd/hzpt/__init__.py:204 *) ("R1", EProp false ["sigma8_z"; "_R1_amp"; "_R1_alpha"]
      ["_R1_alpha"; "_R1_amp"; "sigma8_z"]);
  (* pyRSD/rsd/hzpt/__init__.py:213 *) ("R1h", EProp false ["sigma8_z"; "_R1h_amp"; "_R1h_alpha"]
      ["_R1h_alpha"; "_R1h_amp"; "sigma8_z"]);
  (* pyRSD/rsd/hzpt/__init__.py:222 *) ("R2h", EProp false ["sigma8_z"; "_R2h_amp"; "_R2h_alpha"]
      ["_R2h_alpha"; "_R2h_amp"; "sigma8_z"]);
  (* pyRSD/rsd/hzpt/__init__.py:147 *) ("_A0_alpha", EParam None);
  (* pyRSD/rsd/hzpt/__init__.py:143 *) ("_A0_amp", EParam None);
  (* pyRSD/rsd/hzpt/__init__.py:163 *) ("_R1_alpha", EParam None);
  (* pyRSD/rsd/hzpt/__init__.py:159 *) ("_R1_amp", EParam None);
  (* pyRSD/rsd/hzpt/__init__.py:171 *) ("_R1h_alpha", EParam None);
  (* pyRSD/rsd/hzpt/__init__.py:167 *) ("_R1h_amp", EParam None);
  (* pyRSD/rsd/hzpt/__init__.py:179 *) ("_R2h_alpha", EParam None);
  (* pyRSD/rsd/hzpt/__init__.py:175 *) ("_R2h_amp", EParam None);
  (* pyRSD/rsd/hzpt/__init__.py:155 *) ("_R_alpha", EParam None);
  (* pyRSD/rsd/hzpt/__init__.py:151 *) ("_R_amp", EParam None);
  (* pyRSD/rsd/hzpt/__init__.py:110 *) ("cosmo", EParam None);
  (* pyRSD/rsd/hzpt/P01.py:35 *) ("dA0_dlna", EProp false ["f"; "A0"]
      ["A0"; "_A0_alpha"; "f"]);
  (* pyRSD/rsd/hzpt/P01.py:43 *) ("dR1_dlna", EProp false ["f"; "R1"]
      ["R1"; "_R1_alpha"; "f"]);
  (* pyRSD/rsd/hzpt/P01.py:47 *) ("dR1h_dlna", EProp false ["f"; "R1h"]
      ["R1h"; "_R1h_alpha"; "f"]);
  (* pyRSD/rsd/hzpt/P01.py:51 *) ("dR2h_dlna", EProp false ["f"; "R2h"]
      ["R2h"; "_R2h_alpha"; "f"]);
  (* pyRSD/rsd/hzpt/P01.py:39 *) ("dR_dlna", EProp false ["f"; "R"]
      ["R"; "_R_alpha"; "f"]);
  (* pyRSD/rsd/hzpt/P01.py:25 *) ("f", EParam None);
  (* pyRSD/rsd/hzpt/__init__.py:131 *) ("sigma8_z", EParam None)
].
(** parameters some cached attribute of the class depends on without declaring it *)
Definition gaps_HaloZeldovichP01 : list string := [].

(** class HaloZeldovichP11; MRO: HaloZeldovichP11 HaloZeldovichBase Cache *)
Definition tbl_HaloZeldovichP11 : table := [
  (* pyRSD/rsd/hzpt/P11.py:87 *) ("A0", EProp false ["sigma8_z"; "f"; "_A0_amp"; "_A0_alpha"; "_A0_beta"]
      ["_A0_alpha"; "_A0_amp"; "_A0_beta"; "f"; "sigma8_z"]);
  (* pyRSD/rsd/hzpt/P11.py:91 *) ("R", EProp false ["sigma8_z"; "f"; "_R_amp"; "_R_alpha"; "_R_beta"]
      ["_R_alpha"; "_R_amp"; "_R_beta"; "f"; "sigma8_z"]);
  (* pyRSD/rsd/hzpt/__init__.py:204 *) ("R1", EProp false ["sigma8_z"; "_R1_amp"; "_R1_alpha"]
      ["_R1_alpha"; "_R1_amp"; "sigma8_z"]);
  (* pyRSD/rsd/hzpt/P11.py:95 *) ("R1h", EProp false ["sigma8_z"; "f"; "_R1h_amp"; "_R1h_alpha"; "_R1h_beta"]
      ["_R1h_alpha"; "_R1h_amp"; "_R1h_beta"; "f"; "sigma8_z"]);
  (* pyRSD/rsd/hzpt/__init__.py:222 *) ("R2h", EProp false ["sigma8_z"; "_R2h_amp"; "_R2h_alpha"]
      ["_R2h_alpha"; "_R2h_amp"; "sigma8_z"]);
  (* pyRSD/rsd/hzpt/__init__.py:147 *) ("_A0_alpha", EParam None);
  (* pyRSD/rsd/hzpt/__init__.py:143 *) ("_A0_amp", EParam None);
  (* pyRSD/rsd/hzpt/P11.py:72 *) ("_A0_beta", EParam None);
  (* pyRSD/rsd/hzpt/__init__.py:163 *) ("_R1_alpha", EParam None);
  (* pyRSD/rsd/hzpt/__init__.py:159 *) ("_R1_amp", EParam None);
  (* pyRSD/rsd/hzpt/__init__.py:171 *) ("_R1h_alpha", EParam None);
  (* pyRSD/rsd/hzpt/__init__.py:167 *) ("_R1h_amp", EParam None);
  (* pyRSD/rsd/hzpt/P11.py:80 *) ("_R1h_beta", EParam None);
  (* pyRSD/rsd/hzpt/__init__.py:179 *) ("_R2h_alpha", EParam None);
  (* pyRSD/rsd/hzpt/__init__.py:175 *) ("_R2h_amp", EParam None);
  (* pyRSD/rsd/hzpt/__init__.py:155 *) ("_R_alpha", EParam None);
  (* pyRSD/rsd/hzpt/__init__.py:151 *) ("_R_amp", EParam None);
  (* pyRSD/rsd/hzpt/P11.py:76 *) ("_R_beta", EParam None);
  (* pyRSD/rsd/hzpt/__init__.py:110 *) ("cosmo", EParam None);
  (* pyRSD/rsd/hzpt/P11.py:65 *) ("f", EParam None);
  (* pyRSD/rsd/hzpt/__init__.py:131 *) ("sigma8_z", EParam None)
].
(** parameters some cached attribute of the class depends on without declaring it *)
Definition gaps_HaloZeldovichP11 : list string := [].

(** class HaloZeldovichPhm; MRO: HaloZeldovichPhm HaloMatterBase HaloZeldovichBase Cache *)
Definition tbl_HaloZeldovichPhm : table := [
  (* pyRSD/rsd/hzpt/Phm.py:179 *) ("A0", EProp false ["sigma8_z"; "b1"; "_A0_amp"; "_A0_alpha"; "_A0_beta"; "_A0_run"]
      ["_A0_alpha"; "_A0_amp"; "_A0_beta"; "_A0_run"; "b1"; "sigma8_z"]);
  (* pyRSD/rsd/hzpt/Phm.py:215 *) ("R", EProp false ["sigma8_z"; "b1"; "_R_amp"; "_R_alpha"; "_R_beta"; "_R_run"]
      ["_R_alpha"; "_R_amp"; "_R_beta"; "_R_run"; "b1"; "sigma8_z"]);
  (* pyRSD/rsd/hzpt/Phm.py:188 *) ("R1", EProp false ["sigma8_z"; "b1"; "_R1_amp"; "_R1_alpha"; "_R1_beta"; "_R1_run"]
      ["_R1_alpha"; "_R1_amp"; "_R1_beta"; "_R1_run"; "b1"; "sigma8_z"]);
  (* pyRSD/rsd/hzpt/Phm.py:197 *) ("R1h", EProp false ["sigma8_z"; "b1"; "_R1h_amp"; "_R1h_alpha"; "_R1h_beta"; "_R1h_run"]
      ["_R1h_alpha"; "_R1h_amp"; "_R1h_beta"; "_R1h_run"; "b1"; "sigma8_z"]);
  (* pyRSD/rsd/hzpt/Phm.py:206 *) ("R2h", EProp false ["sigma8_z"; "b1"; "_R2h_amp"; "_R2h_alpha"; "_R2h_beta"; "_R2h_run"]
      ["_R2h_alpha"; "_R2h_amp"; "_R2h_beta"; "_R2h_run"; "b1"; "sigma8_z"]);
  (* pyRSD/rsd/hzpt/Phm.py:88 *) ("_A0_alpha", EParam None);
  (* pyRSD/rsd/hzpt/Phm.py:84 *) ("_A0_amp", EParam None);
  (* pyRSD/rsd/hzpt/Phm.py:92 *) ("_A0_beta", EParam None);
  (* pyRSD/rsd/hzpt/Phm.py:96 *) ("_A0_run", EParam None);
  (* pyRSD/rsd/hzpt/Phm.py:126 *) ("_R1_alpha", EParam None);
  (* pyRSD/rsd/hzpt/Phm.py:122 *) ("_R1_amp", EParam None);
  (* pyRSD/rsd/hzpt/Phm.py:130 *) ("_R1_beta", EParam None);
  (* pyRSD/rsd/hzpt/Phm.py:134 *) ("_R1_run", EParam None);
  (* pyRSD/rsd/hzpt/Phm.py:145 *) ("_R1h_alpha", EParam None);
  (* pyRSD/rsd/hzpt/Phm.py:141 *) ("_R1h_amp", EParam None);
  (* pyRSD/rsd/hzpt/Phm.py:149 *) ("_R1h_beta", EParam None);
  (* pyRSD/rsd/hzpt/Phm.py:153 *) ("_R1h_run", EParam None);
  (* pyRSD/rsd/hzpt/Phm.py:164 *) ("_R2h_alpha", EParam None);
  (* pyRSD/rsd/hzpt/Phm.py:160 *) ("_R2h_amp", EParam None);
  (* pyRSD/rsd/hzpt/Phm.py:168 *) ("_R2h_beta", EParam None);
  (* pyRSD/rsd/hzpt/Phm.py:172 *) ("_R2h_run", EParam None);
  (* pyRSD/rsd/hzpt/Phm.py:107 *) ("_R_alpha", EParam None);
  (* pyRSD/rsd/hzpt/Phm.py:103 *) ("_R_amp", EParam None);
  (* pyRSD/rsd/hzpt/Phm.py:111 *) ("_R_beta", EParam None);
  (* pyRSD/rsd/hzpt/Phm.py:115 *) ("_R_run", EParam None);
  (* pyRSD/rsd/hzpt/Phm.py:74 *) ("b1", EParam None);
  (* pyRSD/rsd/hzpt/__init__.py:110 *) ("cosmo", EParam None);
  (* pyRSD/rsd/hzpt/__init__.py:131 *) ("sigma8_z", EParam None)
].
(** parameters some cached attribute of the class depends on without declaring it *)
Definition gaps_HaloZeldovichPhm : list string := [].

(** class HaloZeldovichCFhm; MRO: HaloZeldovichCFhm HaloMatterBase HaloZeldovichBase Cache *)
Definition tbl_HaloZeldovichCFhm : table := [
  (* pyRSD/rsd/hzpt/Phm.py:179 *) ("A0", EProp false ["sigma8_z"; "b1"; "_A0_amp"; "_A0_alpha"; "_A0_beta"; "_A0_run"]
      ["_A0_alpha"; "_A0_amp"; "_A0_beta"; "_A0_run"; "b1"; "sigma8_z"]);
  (* pyRSD/rsd/hzpt/Phm.py:215 *) ("R", EProp false ["sigma8_z"; "b1"; "_R_amp"; "_R_alpha"; "_R_beta"; "_R_run"]
      ["_R_alpha"; "_R_amp"; "_R_beta"; "_R_run"; "b1"; "sigma8_z"]);
  (* pyRSD/rsd/hzpt/Phm.py:188 *) ("R1", EProp false ["sigma8_z"; "b1"; "_R1_amp"; "_R1_alpha"; "_R1_beta"; "_R1_run"]
      ["_R1_alpha"; "_R1_amp"; "_R1_beta"; "_R1_run"; "b1"; "sigma8_z"]);
  (* pyRSD/rsd/hzpt/Phm.py:197 *) ("R1h", EProp false ["sigma8_z"; "b1"; "_R1h_amp"; "_R1h_alpha"; "_R1h_beta"; "_R1h_run"]
      ["_R1h_alpha"; "_R1h_amp"; "_R1h_beta"; "_R1h_run"; "b1"; "sigma8_z"]);
  (* pyRSD/rsd/hzpt/Phm.py:206 *) ("R2h", EProp false ["sigma8_z"; "b1"; "_R2h_amp"; "_R2h_alpha"; "_R2h_beta"; "_R2h_run"]
      ["_R2h_alpha"; "_R2h_amp"; "_R2h_beta"; "_R2h_run"; "b1"; "sigma8_z"]);
  (* pyRSD/rsd/hzpt/Phm.py:88 *) ("_A0_alpha", EParam None);
  (* pyRSD/rsd/hzpt/Phm.py:84 *) ("_A0_amp", EParam None);
  (* pyRSD/rsd/hzpt/Phm.py:92 *) ("_A0_beta", EParam None);
  (* pyRSD/rsd/hzpt/Phm.py:96 *) ("_A0_run", EParam None);
  (* pyRSD/rsd/hzpt/Phm.py:126 *) ("_R1_alpha", EParam None);
  (* pyRSD/rsd/hzpt/Phm.py:122 *) ("_R1_amp", EParam None);
  (* pyRSD/rsd/hzpt/Phm.py:130 *) ("_R1_beta", EParam None);
  (* pyRSD/rsd/hzpt/Phm.py:134 *) ("_R1_run", EParam None);
  (* pyRSD/rsd/hzpt/Phm.py:145 *) ("_R1h_alpha", EParam None);
  (* pyRSD/rsd/hzpt/Phm.py:141 *) ("_R1h_amp", EParam None);
  (* pyRSD/rsd/hzpt/Phm.py:149 *) ("_R1h_beta", EParam None);
  (* pyRSD/rsd/hzpt/Phm.py:153 *) ("_R1h_run", EParam None);
  (* pyRSD/rsd/hzpt/Phm.py:164 *) ("_R2h_alpha", EParam None);
  (* pyRSD/rsd/hzpt/Phm.py:160 *) ("_R2h_amp", EParam None);
  (* pyRSD/rsd/hzpt/Phm.py:168 *) ("_R2h_beta", EParam None);
  (* pyRSD/rsd/hzpt/Phm.py:172 *) ("_R2h_run", EParam None);
  (* pyRSD/rsd/hzpt/Phm.py:107 *) ("_R_alpha", EParam None);
  (* pyRSD/rsd/hzpt/Phm.py:103 *) ("_R_amp", EParam None);
  (* pyRSD/rsd/hzpt/Phm.py:111 *) ("_R_beta", EParam None);
  (* pyRSD/rsd/hzpt/Phm.py:115 *) ("_R_run", EParam None);
  (* pyRSD/rsd/hzpt/Phm.py:74 *) ("b1", EParam None);
  (* pyRSD/rsd/hzpt/__init__.py:110 *) ("cosmo", EParam None);
  (* pyRSD/rsd/hzpt/__init__.py:131 *) ("sigma8_z", EParam None)
].
(** parameters some cached attribute of the class depends on without declaring it *)
Definition gaps_HaloZeldovichCFhm : list string := [].

(** class SimulationP11; MRO: SimulationP11 InterpolatedSimulationData Cache *)
Definition tbl_SimulationP11 : table := [
  (* pyRSD/rsd/simulation.py:403 *) ("f", EParam None);
  (* pyRSD/rsd/simulation.py:485 *) ("interpolation_table", EProp false []
      []);
  (* pyRSD/rsd/simulation.py:410 *) ("power_lin", EParam None);
  (* pyRSD/rsd/simulation.py:424 *) ("sigma8_z", EParam None);
  (* pyRSD/rsd/simulation.py:417 *) ("z", EParam None)
].
(** parameters some cached attribute of the class depends on without declaring it *)
Definition gaps_SimulationP11 : list string := [].

(** class SimulationPdv; MRO: SimulationPdv InterpolatedSimulationData Cache *)
Definition tbl_SimulationPdv : table := [
  (* pyRSD/rsd/simulation.py:403 *) ("f", EParam None);
  (* pyRSD/rsd/simulation.py:603 *) ("interpolation_table", EProp false []
      []);
  (* pyRSD/rsd/simulation.py:410 *) ("power_lin", EParam None);
  (* pyRSD/rsd/simulation.py:424 *) ("sigma8_z", EParam None);
  (* pyRSD/rsd/simulation.py:417 *) ("z", EParam None)
].
(** parameters some cached attribute of the class depends on without declaring it *)
Definition gaps_SimulationPdv : list string := [].

(** class GeorgeSimulationData; MRO: GeorgeSimulationData Cache *)
Definition tbl_GeorgeSimulationData : table := [
  (* pyRSD/rsd/simulation.py:90 *) ("data", EParam None);
  (* pyRSD/rsd/simulation.py:114 *) ("dependent", EParam None);
  (* pyRSD/rsd/simulation.py:205 *) ("gp", EProp false ["data"; "kernel"; "solver"]
      ["kernel"; "ndim"; "solver"; "theta"; "use_errors"; "x_scaled"; "xshape"; "yerr_scaled"]);
  (* pyRSD/rsd/simulation.py:104 *) ("independent", EParam None);
  (* pyRSD/rsd/simulation.py:66 *) ("kernel", EParam None);
  (* pyRSD/rsd/simulation.py:137 *) ("ndim", EProp false ["theta"]
      ["theta"]);
  (* pyRSD/rsd/simulation.py:73 *) ("solver", EParam None);
  (* pyRSD/rsd/simulation.py:83 *) ("theta", EParam None);
  (* pyRSD/rsd/simulation.py:97 *) ("use_errors", EParam None);
  (* pyRSD/rsd/simulation.py:144 *) ("x", EProp false ["data"]
      ["data"; "independent"]);
  (* pyRSD/rsd/simulation.py:181 *) ("x_scaled", EProp false ["x"]
      ["x"; "x_scaler"]);
  (* pyRSD/rsd/simulation.py:165 *) ("x_scaler", EProp false ["x"]
      ["x"]);
  (* pyRSD/rsd/simulation.py:128 *) ("xshape", EProp false ["x"]
      ["x"]);
  (* pyRSD/rsd/simulation.py:151 *) ("y", EProp false ["data"]
      ["data"; "dependent"]);
  (* pyRSD/rsd/simulation.py:191 *) ("y_scaled", EProp false ["y"]
      ["y"; "y_scaler"]);
  (* pyRSD/rsd/simulation.py:174 *) ("y_scaler", EProp false ["y"]
      ["y"]);
  (* pyRSD/rsd/simulation.py:158 *) ("yerr", EProp false ["data"]
      ["data"; "dependent"]);
  (* pyRSD/rsd/simulation.py:198 *) ("yerr_scaled", EProp false ["yerr"]
      ["y_scaler"; "yerr"])
].
(** parameters some cached attribute of the class depends on without declaring it *)
Definition gaps_GeorgeSimulationData : list string := ["dependent"; "independent"; "theta"; "use_errors"].

(** class BiasToSigmaRelation; MRO: BiasToSigmaRelation BiasToMassRelation Cache *)
Definition tbl_BiasToSigmaRelation : table := [
  (* pyRSD/rsd/tools.py:589 *) ("Ez", EProp false ["z"; "cosmo"]
      ["cosmo"; "z"]);
  (* pyRSD/rsd/tools.py:582 *) ("Hz", EProp false ["z"; "cosmo"]
      ["cosmo"; "z"]);
  (* pyRSD/rsd/tools.py:572 *) ("M_0", EParam None);
  (* pyRSD/rsd/tools.py:438 *) ("cosmo", EParam None);
  (* pyRSD/rsd/tools.py:445 *) ("delta_halo", EParam None);
  (* pyRSD/rsd/tools.py:424 *) ("interpolate", EParam None);
  (* pyRSD/rsd/tools.py:458 *) ("interpolation_table", EProp false []
      ["cosmo"; "power_lin"]);
  (* pyRSD/rsd/tools.py:450 *) ("power_lin", EProp false ["cosmo"]
      ["cosmo"]);
  (* pyRSD/rsd/tools.py:565 *) ("sigmav_0", EParam None);
  (* pyRSD/rsd/tools.py:431 *) ("z", EParam None)
].
(** parameters some cached attribute of the class depends on without declaring it *)
Definition gaps_BiasToSigmaRelation : list string := ["cosmo"].

(** class ExtrapolatedPowerSpectrum; MRO: ExtrapolatedPowerSpectrum Cache *)
Definition tbl_ExtrapolatedPowerSpectrum : table := [
  (* pyRSD/rsd/power_extrapolator.py:160 *) ("_grid", EProp false ["_ks"; "_mus"]
      ["_ks"; "_mus"]);
  (* pyRSD/rsd/power_extrapolator.py:178 *) ("_high_k_splines", EProp false ["k_hi"; "kcut_hi"; "_grid"]
      ["_grid"; "_ks"; "_mus"; "_power_spline"; "k_hi"; "kcut_hi"]);
  (* pyRSD/rsd/power_extrapolator.py:146 *) ("_ks", EProp false ["model_kmin"; "model_kmax"]
      ["model_kmax"; "model_kmin"]);
  (* pyRSD/rsd/power_extrapolator.py:205 *) ("_low_k_splines", EProp false ["k_lo"; "kcut_lo"; "_grid"]
      ["_grid"; "_ks"; "_mus"; "_power_spline"; "k_lo"; "kcut_lo"]);
  (* pyRSD/rsd/power_extrapolator.py:153 *) ("_mus", EProp false []
      []);
  (* pyRSD/rsd/power_extrapolator.py:169 *) ("_power_spline", EProp false ["_ks"; "_mus"]
      ["_ks"; "_mus"]);
  (* pyRSD/rsd/power_extrapolator.py:87 *) ("k_hi", EParam None);
  (* pyRSD/rsd/power_extrapolator.py:97 *) ("k_lo", EParam None);
  (* pyRSD/rsd/power_extrapolator.py:107 *) ("kcut_hi", EParam None);
  (* pyRSD/rsd/power_extrapolator.py:117 *) ("kcut_lo", EParam None);
  (* pyRSD/rsd/power_extrapolator.py:77 *) ("model_func", EParam None);
  (* pyRSD/rsd/power_extrapolator.py:135 *) ("model_kmax", EParam None);
  (* pyRSD/rsd/power_extrapolator.py:127 *) ("model_kmin", EParam None)
].
(** parameters some cached attribute of the class depends on without declaring it *)
Definition gaps_ExtrapolatedPowerSpectrum : list string := [].

(** class GriddedWedgeTransfer; MRO: GriddedWedgeTransfer TransferBase Cache *)
Definition tbl_GriddedWedgeTransfer : table := [
  (* pyRSD/rsd/transfers/grid.py:143 *) ("binshape", EProp false ["mu_edges"]
      ["mu_edges"]);
  (* pyRSD/rsd/transfers/grid.py:133 *) ("in_k_range", EProp false ["kmin"; "kmax"]
      ["kmax"; "kmin"]);
  (* pyRSD/rsd/transfers/grid.py:71 *) ("kmax", EParam None);
  (* pyRSD/rsd/transfers/grid.py:59 *) ("kmin", EParam None);
  (* pyRSD/rsd/transfers/grid.py:42 *) ("mu_bounds", EParam None);
  (* pyRSD/rsd/transfers/grid.py:83 *) ("mu_edges", EProp false ["mu_bounds"]
      ["mu_bounds"]);
  (* pyRSD/rsd/transfers/grid.py:151 *) ("mu_indices", EProp false ["mu_edges"]
      ["binshape"; "mu_edges"]);
  (* pyRSD/rsd/transfers/__init__.py:116 *) ("power", EParam None)
].
(** parameters some cached attribute of the class depends on without declaring it *)
Definition gaps_GriddedWedgeTransfer : list string := [].

(** class GriddedMultipoleTransfer; MRO: GriddedMultipoleTransfer GriddedWedgeTransfer TransferBase Cache *)
Definition tbl_GriddedMultipoleTransfer : table := [
  (* pyRSD/rsd/transfers/grid.py:143 *) ("binshape", EProp false ["mu_edges"]
      ["mu_edges"]);
  (* pyRSD/rsd/transfers/grid.py:251 *) ("ells", EParam None);
  (* pyRSD/rsd/transfers/grid.py:133 *) ("in_k_range", EProp false ["kmin"; "kmax"]
      ["kmax"; "kmin"]);
  (* pyRSD/rsd/transfers/grid.py:259 *) ("k_mean", EProp false []
      ["binshape"; "mu_indices"]);
  (* pyRSD/rsd/transfers/grid.py:71 *) ("kmax", EParam None);
  (* pyRSD/rsd/transfers/grid.py:59 *) ("kmin", EParam None);
  (* pyRSD/rsd/transfers/grid.py:273 *) ("legendre_weights", EProp false ["ells"]
      ["ells"]);
  (* pyRSD/rsd/transfers/grid.py:42 *) ("mu_bounds", EParam None);
  (* pyRSD/rsd/transfers/grid.py:83 *) ("mu_edges", EProp false ["mu_bounds"]
      ["mu_bounds"]);
  (* pyRSD/rsd/transfers/grid.py:151 *) ("mu_indices", EProp false ["mu_edges"]
      ["binshape"; "mu_edges"]);
  (* pyRSD/rsd/transfers/__init__.py:116 *) ("power", EParam None)
].
(** parameters some cached attribute of the class depends on without declaring it *)
Definition gaps_GriddedMultipoleTransfer : list string := ["mu_bounds"].

(** class WedgeTransfer; MRO: WedgeTransfer TransferBase Cache *)
Definition tbl_WedgeTransfer : table := [
  (* pyRSD/rsd/transfers/wedges.py:40 *) ("mu_bounds", EParam None);
  (* pyRSD/rsd/transfers/wedges.py:56 *) ("mu_edges", EProp false ["mu_bounds"]
      ["mu_bounds"]);
  (* pyRSD/rsd/transfers/__init__.py:116 *) ("power", EParam None)
].
(** parameters some cached attribute of the class depends on without declaring it *)
Definition gaps_WedgeTransfer : list string := [].

(** class WindowFunctionTransfer; MRO: WindowFunctionTransfer GriddedMultipoleTransfer GriddedWedgeTransfer TransferBase Cache *)
Definition tbl_WindowFunctionTransfer : table := [
  (* pyRSD/rsd/transfers/grid.py:143 *) ("binshape", EProp false ["mu_edges"]
      ["mu_edges"]);
  (* pyRSD/rsd/transfers/grid.py:251 *) ("ells", EParam None);
  (* pyRSD/rsd/transfers/grid.py:133 *) ("in_k_range", EProp false ["kmin"; "kmax"]
      ["kmax"; "kmin"]);
  (* pyRSD/rsd/transfers/grid.py:259 *) ("k_mean", EProp false []
      ["binshape"; "mu_indices"]);
  (* pyRSD/rsd/transfers/grid.py:71 *) ("kmax", EParam None);
  (* pyRSD/rsd/transfers/grid.py:59 *) ("kmin", EParam None);
  (* pyRSD/rsd/transfers/grid.py:273 *) ("legendre_weights", EProp false ["ells"]
      ["ells"]);
  (* pyRSD/rsd/transfers/grid.py:42 *) ("mu_bounds", EParam None);
  (* pyRSD/rsd/transfers/grid.py:83 *) ("mu_edges", EProp false ["mu_bounds"]
      ["mu_bounds"]);
  (* pyRSD/rsd/transfers/grid.py:151 *) ("mu_indices", EProp false ["mu_edges"]
      ["binshape"; "mu_edges"]);
  (* pyRSD/rsd/transfers/__init__.py:116 *) ("power", EParam None)
].
(** parameters some cached attribute of the class depends on without declaring it *)
Definition gaps_WindowFunctionTransfer : list string := ["mu_bounds"].

(** class PkmuCovarianceMatrix; MRO: PkmuCovarianceMatrix CovarianceMatrix Cache *)
Definition tbl_PkmuCovarianceMatrix : table := [
  (* pyRSD/rsdfit/data/covariance_matrix.py:90 *) ("_data", EParam None);
  (* pyRSD/rsdfit/data/covariance_matrix.py:98 *) ("attrs", EParam None);
  (* pyRSD/rsdfit/data/covariance_matrix.py:546 *) ("coords", EProp false []
      []);
  (* pyRSD/rsdfit/data/covariance_matrix.py:557 *) ("diag", EProp false ["_data"]
      ["_data"]);
  (* pyRSD/rsdfit/data/covariance_matrix.py:539 *) ("dims", EProp false []
      []);
  (* pyRSD/rsdfit/data/covariance_matrix.py:532 *) ("index", EProp false []
      []);
  (* pyRSD/rsdfit/data/covariance_matrix.py:565 *) ("inverse", EProp false ["_data"; "inverse_rescaling"]
      ["inverse_rescaling"; "values"]);
  (* pyRSD/rsdfit/data/covariance_matrix.py:105 *) ("inverse_rescaling", EParam None);
  (* pyRSD/rsdfit/data/covariance_matrix.py:579 *) ("normalized", EProp false ["_data"]
      ["diag"]);
  (* pyRSD/rsdfit/data/covariance_matrix.py:553 *) ("shape", EProp false []
      []);
  (* pyRSD/rsdfit/data/covariance_matrix.py:572 *) ("values", EProp false ["_data"]
      ["_data"])
].
(** parameters some cached attribute of the class depends on without declaring it *)
Definition gaps_PkmuCovarianceMatrix : list string := [].

(** class PoleCovarianceMatrix; MRO: PoleCovarianceMatrix CovarianceMatrix Cache *)
Definition tbl_PoleCovarianceMatrix : table := [
  (* pyRSD/rsdfit/data/covariance_matrix.py:90 *) ("_data", EParam None);
  (* pyRSD/rsdfit/data/covariance_matrix.py:98 *) ("attrs", EParam None);
  (* pyRSD/rsdfit/data/covariance_matrix.py:546 *) ("coords", EProp false []
      []);
  (* pyRSD/rsdfit/data/covariance_matrix.py:557 *) ("diag", EProp false ["_data"]
      ["_data"]);
  (* pyRSD/rsdfit/data/covariance_matrix.py:539 *) ("dims", EProp false []
      []);
  (* pyRSD/rsdfit/data/covariance_matrix.py:532 *) ("index", EProp false []
      []);
  (* pyRSD/rsdfit/data/covariance_matrix.py:565 *) ("inverse", EProp false ["_data"; "inverse_rescaling"]
      ["inverse_rescaling"; "values"]);
  (* pyRSD/rsdfit/data/covariance_matrix.py:105 *) ("inverse_rescaling", EParam None);
  (* pyRSD/rsdfit/data/covariance_matrix.py:579 *) ("normalized", EProp false ["_data"]
      ["diag"]);
  (* pyRSD/rsdfit/data/covariance_matrix.py:553 *) ("shape", EProp false []
      []);
  (* pyRSD/rsdfit/data/covariance_matrix.py:572 *) ("values", EProp false ["_data"]
      ["_data"])
].
(** parameters some cached attribute of the class depends on without declaring it *)
Definition gaps_PoleCovarianceMatrix : list string := [].

(** class PowerMeasurement; MRO: PowerMeasurement Cache *)
Definition tbl_PowerMeasurement : table := [
  (* pyRSD/rsdfit/data/power_measurement.py:219 *) ("_error_input", EParam None);
  (* pyRSD/rsdfit/data/power_measurement.py:205 *) ("_k_input", EParam None);
  (* pyRSD/rsdfit/data/power_measurement.py:226 *) ("_mu_input", EParam None);
  (* pyRSD/rsdfit/data/power_measurement.py:212 *) ("_power_input", EParam None);
  (* pyRSD/rsdfit/data/power_measurement.py:272 *) ("_trim_idx", EProp false ["_k_input"; "kmin"; "kmax"]
      ["_k_input"; "kmax"; "kmin"]);
  (* pyRSD/rsdfit/data/power_measurement.py:261 *) ("columns", EProp false []
      []);
  (* pyRSD/rsdfit/data/power_measurement.py:251 *) ("ell", EParam None);
  (* pyRSD/rsdfit/data/power_measurement.py:304 *) ("error", EProp false ["_error_input"; "_trim_idx"]
      ["_error_input"; "_trim_idx"]);
  (* pyRSD/rsdfit/data/power_measurement.py:321 *) ("identifier", EProp false ["type"; "ell"; "mu"]
      ["ell"; "mu"; "type"]);
  (* pyRSD/rsdfit/data/power_measurement.py:279 *) ("k", EProp false ["_k_input"; "_trim_idx"]
      ["_k_input"; "_trim_idx"]);
  (* pyRSD/rsdfit/data/power_measurement.py:242 *) ("kmax", EParam None);
  (* pyRSD/rsdfit/data/power_measurement.py:233 *) ("kmin", EParam None);
  (* pyRSD/rsdfit/data/power_measurement.py:334 *) ("label", EProp false ["type"; "identifier"]
      ["ell"; "identifier"; "type"]);
  (* pyRSD/rsdfit/data/power_measurement.py:286 *) ("mu", EProp false ["_mu_input"; "_trim_idx"]
      ["_mu_input"; "_trim_idx"]);
  (* pyRSD/rsdfit/data/power_measurement.py:297 *) ("power", EProp false ["_power_input"; "_trim_idx"]
      ["_power_input"; "_trim_idx"]);
  (* pyRSD/rsdfit/data/power_measurement.py:314 *) ("size", EProp false ["k"]
      ["k"]);
  (* pyRSD/rsdfit/data/power_measurement.py:194 *) ("type", EParam None)
].
(** parameters some cached attribute of the class depends on without declaring it *)
Definition gaps_PowerMeasurement : list string := [].

(** class PowerData; MRO: PowerData PowerDataSchema Cache *)
Definition tbl_PowerData : table := [
  (* pyRSD/rsdfit/data/power_measurement.py:1104 *) ("combined_ell", EProp false ["measurements"; "kmin"; "kmax"]
      []);
  (* pyRSD/rsdfit/data/power_measurement.py:1120 *) ("combined_error", EProp false ["measurements"; "kmin"; "kmax"]
      []);
  (* pyRSD/rsdfit/data/power_measurement.py:1080 *) ("combined_k", EProp false ["measurements"; "kmin"; "kmax"]
      []);
  (* pyRSD/rsdfit/data/power_measurement.py:1088 *) ("combined_mu", EProp false ["measurements"; "kmin"; "kmax"]
      ["combined_k"]);
  (* pyRSD/rsdfit/data/power_measurement.py:1112 *) ("combined_power", EProp false ["measurements"; "kmin"; "kmax"]
      []);
  (* pyRSD/rsdfit/data/power_measurement.py:466 *) ("covariance", EParam None);
  (* pyRSD/rsdfit/data/power_measurement.py:491 *) ("covariance_Nmocks", EParam None);
  (* pyRSD/rsdfit/data/power_measurement.py:484 *) ("covariance_rescaling", EParam None);
  (* pyRSD/rsdfit/data/power_measurement.py:425 *) ("data_file", EParam None);
  (* pyRSD/rsdfit/data/power_measurement.py:1128 *) ("diagonal_covariance", EProp false ["measurements"; "kmin"; "kmax"]
      []);
  (* pyRSD/rsdfit/data/power_measurement.py:501 *) ("ells", EParam None);
  (* pyRSD/rsdfit/data/power_measurement.py:415 *) ("fitting_range", EParam None);
  (* pyRSD/rsdfit/data/power_measurement.py:1056 *) ("global_kmax", EProp false ["kmax"]
      ["kmax"; "window_file"]);
  (* pyRSD/rsdfit/data/power_measurement.py:1046 *) ("global_kmin", EProp false ["kmin"]
      ["kmin"; "window_file"]);
  (* pyRSD/rsdfit/data/power_measurement.py:432 *) ("grid_file", EParam None);
  (* pyRSD/rsdfit/data/power_measurement.py:706 *) ("kmax", EParam None);
  (* pyRSD/rsdfit/data/power_measurement.py:691 *) ("kmin", EParam None);
  (* pyRSD/rsdfit/data/power_measurement.py:523 *) ("max_ellprime", EParam None);
  (* pyRSD/rsdfit/data/power_measurement.py:684 *) ("measurements", EParam None);
  (* pyRSD/rsdfit/data/power_measurement.py:390 *) ("mode", EParam None);
  (* pyRSD/rsdfit/data/power_measurement.py:511 *) ("mu_bounds", EParam None);
  (* pyRSD/rsdfit/data/power_measurement.py:1066 *) ("ndim", EProp false ["combined_power"]
      ["combined_power"]);
  (* pyRSD/rsdfit/data/power_measurement.py:1073 *) ("size", EProp false ["measurements"]
      ["measurements"]);
  (* pyRSD/rsdfit/data/power_measurement.py:399 *) ("statistics", EParam None);
  (* pyRSD/rsdfit/data/power_measurement.py:473 *) ("usedata", EParam None);
  (* pyRSD/rsdfit/data/power_measurement.py:440 *) ("window_file", EParam None);
  (* pyRSD/rsdfit/data/power_measurement.py:459 *) ("window_kmax", EParam None);
  (* pyRSD/rsdfit/data/power_measurement.py:452 *) ("window_kmin", EParam None)
].
(** parameters some cached attribute of the class depends on without declaring it *)
Definition gaps_PowerData : list string := ["window_file"].

(** class FittingDriver; MRO: FittingDriver FittingDriverSchema Cache *)
Definition tbl_FittingDriver : table := [
  (* pyRSD/rsdfit/driver.py:81 *) ("burnin", EParam None);
  (* pyRSD/rsdfit/driver.py:94 *) ("epsilon", EParam None);
  (* pyRSD/rsdfit/driver.py:101 *) ("init_from", EParam None);
  (* pyRSD/rsdfit/driver.py:119 *) ("init_scatter", EParam None);
  (* pyRSD/rsdfit/driver.py:127 *) ("lbfgs_epsilon", EParam None);
  (* pyRSD/rsdfit/driver.py:152 *) ("lbfgs_numerical", EParam None);
  (* pyRSD/rsdfit/driver.py:159 *) ("lbfgs_numerical_from_lnlike", EParam None);
  (* pyRSD/rsdfit/driver.py:137 *) ("lbfgs_options", EParam None);
  (* pyRSD/rsdfit/driver.py:144 *) ("lbfgs_use_priors", EParam None);
  (* pyRSD/rsdfit/driver.py:167 *) ("start_from", EParam None);
  (* pyRSD/rsdfit/driver.py:185 *) ("stat_specific_params", EParam None);
  (* pyRSD/rsdfit/driver.py:174 *) ("test_convergence", EParam None);
  (* pyRSD/rsdfit/driver.py:59 *) ("theory_decorator", EParam None);
  (* pyRSD/rsdfit/driver.py:50 *) ("tracer_type", EParam None)
].
(** parameters some cached attribute of the class depends on without declaring it *)
Definition gaps_FittingDriver : list string := [].

(** class Parameter; MRO: Parameter PickeableCache *)
Definition tbl_Parameter : table := [
  (* pyRSD/rsdfit/parameters/parameter.py:239 *) ("analytic", EParam None);
  (* pyRSD/rsdfit/parameters/parameter.py:299 *) ("description", EParam None);
  (* pyRSD/rsdfit/parameters/parameter.py:292 *) ("fiducial", EParam None);
  (* pyRSD/rsdfit/parameters/parameter.py:365 *) ("has_fiducial", EProp false ["fiducial"]
      ["fiducial"]);
  (* pyRSD/rsdfit/parameters/parameter.py:358 *) ("has_prior", EProp false ["prior"]
      ["prior"]);
  (* pyRSD/rsdfit/parameters/parameter.py:306 *) ("lower", EParam None);
  (* pyRSD/rsdfit/parameters/parameter.py:259 *) ("max", EParam None);
  (* pyRSD/rsdfit/parameters/parameter.py:379 *) ("max_bound", EProp false ["max"]
      ["max"]);
  (* pyRSD/rsdfit/parameters/parameter.py:252 *) ("min", EParam None);
  (* pyRSD/rsdfit/parameters/parameter.py:372 *) ("min_bound", EProp false ["min"]
      ["min"]);
  (* pyRSD/rsdfit/parameters/parameter.py:320 *) ("mu", EParam None);
  (* pyRSD/rsdfit/parameters/parameter.py:344 *) ("prior", EProp false ["prior_name"; "lower"; "upper"; "mu"; "sigma"]
      ["lower"; "mu"; "prior_name"; "sigma"; "upper"]);
  (* pyRSD/rsdfit/parameters/parameter.py:334 *) ("prior_name", EParam None);
  (* pyRSD/rsdfit/parameters/parameter.py:327 *) ("sigma", EParam None);
  (* pyRSD/rsdfit/parameters/parameter.py:313 *) ("upper", EParam None)
].
(** parameters some cached attribute of the class depends on without declaring it *)
Definition gaps_Parameter : list string := [].

Definition class_tables : list (string * (table * list string)) := [
  ("DarkMatterSpectrum", (tbl_DarkMatterSpectrum, gaps_DarkMatterSpectrum));
  ("HaloSpectrum", (tbl_HaloSpectrum, gaps_HaloSpectrum));
  ("GalaxySpectrum", (tbl_GalaxySpectrum, gaps_GalaxySpectrum));
  ("QuasarSpectrum", (tbl_QuasarSpectrum, gaps_QuasarSpectrum));
  ("HaloZeldovichP00", (tbl_HaloZeldovichP00, gaps_HaloZeldovichP00));
  ("HaloZeldovichP01", (tbl_HaloZeldovichP01, gaps_HaloZeldovichP01));
  ("HaloZeldovichP11", (tbl_HaloZeldovichP11, gaps_HaloZeldovichP11));
  ("HaloZeldovichPhm", (tbl_HaloZeldovichPhm, gaps_HaloZeldovichPhm));
  ("HaloZeldovichCFhm", (tbl_HaloZeldovichCFhm, gaps_HaloZeldovichCFhm));
  ("SimulationP11", (tbl_SimulationP11, gaps_SimulationP11));
  ("SimulationPdv", (tbl_SimulationPdv, gaps_SimulationPdv));
  ("GeorgeSimulationData", (tbl_GeorgeSimulationData, gaps_GeorgeSimulationData));
  ("BiasToSigmaRelation", (tbl_BiasToSigmaRelation, gaps_BiasToSigmaRelation));
  ("ExtrapolatedPowerSpectrum", (tbl_ExtrapolatedPowerSpectrum, gaps_ExtrapolatedPowerSpectrum));
  ("GriddedWedgeTransfer", (tbl_GriddedWedgeTransfer, gaps_GriddedWedgeTransfer));
  ("GriddedMultipoleTransfer", (tbl_GriddedMultipoleTransfer, gaps_GriddedMultipoleTransfer));
  ("WedgeTransfer", (tbl_WedgeTransfer, gaps_WedgeTransfer));
  ("WindowFunctionTransfer", (tbl_WindowFunctionTransfer, gaps_WindowFunctionTransfer));
  ("PkmuCovarianceMatrix", (tbl_PkmuCovarianceMatrix, gaps_PkmuCovarianceMatrix));
  ("PoleCovarianceMatrix", (tbl_PoleCovarianceMatrix, gaps_PoleCovarianceMatrix));
  ("PowerMeasurement", (tbl_PowerMeasurement, gaps_PowerMeasurement));
  ("PowerData", (tbl_PowerData, gaps_PowerData));
  ("FittingDriver", (tbl_FittingDriver, gaps_FittingDriver));
  ("Parameter", (tbl_Parameter, gaps_Parameter))
].
