(** Field names, default values and bounds of every population component,
    transcribed from /repo/diffmah/diffmahpop_kernels. *)

From Coq Require Import Reals String List.
From Verif Require Import Model_PopBase.
Import ListNotations.
Local Open Scope string_scope.
Local Open Scope R_scope.

(** diffmahpop_kernels/t_peak_kernels/tp_pdf_cens_flex.py:24-31 and 35-42 *)
Definition TPCENS_FLEX : component := mkComponent
  [ ("cen_tp_lgm_x0_x0", (1101 / 100));
    ("cen_tp_t_obs_x0_x0", (3798 / 1000));
    ("cen_tp_x0_ylo_early", (99 / 100));
    ("cen_tp_x0_yhi_early", (175 / 100));
    ("cen_tp_x0_ylo_late", (69 / 100));
    ("cen_tp_x0_yhi_late", (1351 / 1000)) ]
  [ ("cen_tp_lgm_x0_x0", (11, 14));
    ("cen_tp_t_obs_x0_x0", (3, 10));
    ("cen_tp_x0_ylo_early", ((5 / 10), 1));
    ("cen_tp_x0_yhi_early", (1, (18 / 10)));
    ("cen_tp_x0_ylo_late", ((5 / 10), 1));
    ("cen_tp_x0_yhi_late", (1, (18 / 10))) ].

(** diffmahpop_kernels/t_peak_kernels/tp_pdf_sats.py:22-30 and 34-42 *)
Definition TP_SATS : component := mkComponent
  [ ("utp_loc_lgm_ylo_t0", (8779 / 1000));
    ("utp_loc_lgm_ylo_early", (797 / 1000));
    ("utp_loc_lgm_ylo_late", (16 / 100));
    ("utp_loc_lgm_x0", (12967 / 1000));
    ("utp_scale_lgm_ylo_t0", (6623 / 1000));
    ("utp_scale_lgm_ylo_early", (105 / 1000));
    ("utp_scale_lgm_ylo_late", (334 / 1000)) ]
  [ ("utp_loc_lgm_ylo_t0", (5, 10));
    ("utp_loc_lgm_ylo_early", ((4 / 10), (8 / 10)));
    ("utp_loc_lgm_ylo_late", ((15 / 100), (25 / 100)));
    ("utp_loc_lgm_x0", (11, 13));
    ("utp_scale_lgm_ylo_t0", (6, 11));
    ("utp_scale_lgm_ylo_early", ((1 / 10), (5 / 10)));
    ("utp_scale_lgm_ylo_late", ((1 / 10), (6 / 10))) ].

(** diffmahpop_kernels/t_peak_kernels/utp_pdf_kernels.py:21-21 and 24-26 *)
Definition UTP : component := mkComponent
  [ ("utp_loc", (5 / 10));
    ("utp_scale", (5 / 10)) ]
  [ ("utp_loc", ((1001 / 10000), (9999 / 10000)));
    ("utp_scale", ((1 / 10000), 1)) ].

(** diffmahpop_kernels/t_peak_kernels/tp_pdf_cens.py:16-20 and 22-26 *)
Definition TPCENS : component := mkComponent
  [ ("tpck_scale_boost_early", (314 / 1000));
    ("tpck_scale_mh_lo", (469 / 1000));
    ("tpck_scale_mh_hi", (292 / 1000)) ]
  [ ("tpck_scale_boost_early", ((1 / 100), (9 / 10)));
    ("tpck_scale_mh_lo", ((1 / 10), (9 / 10)));
    ("tpck_scale_mh_hi", ((1 / 10), (9 / 10))) ].

(** diffmahpop_kernels/bimod_logm0_kernels/logm0_c0_early.py:13-19 and 26-32 *)
Definition LGM0_C0_EARLY : component := mkComponent
  [ ("lgm0pop_c0_ytp_early", (2 / 100));
    ("lgm0pop_c0_ylo_early", (-13 / 100));
    ("lgm0pop_c0_clip_c0_early", (897 / 1000));
    ("lgm0pop_c0_clip_c1_early", (-9 / 100));
    ("lgm0pop_c0_t_obs_x0_early", (151 / 100)) ]
  [ ("lgm0pop_c0_ytp_early", ((1 / 100), (4 / 10)));
    ("lgm0pop_c0_ylo_early", ((-15 / 100), (-5 / 100)));
    ("lgm0pop_c0_clip_c0_early", ((5 / 10), (9 / 10)));
    ("lgm0pop_c0_clip_c1_early", ((-1 / 10), (-1 / 100)));
    ("lgm0pop_c0_t_obs_x0_early", ((15 / 10), 6)) ].

(** diffmahpop_kernels/bimod_logm0_kernels/logm0_c1_early.py:13-20 and 25-32 *)
Definition LGM0_C1_EARLY : component := mkComponent
  [ ("lgm0pop_c1_ytp_early", (2 / 1000));
    ("lgm0pop_c1_ylo_early", (-43 / 1000));
    ("lgm0pop_c1_clip_x0_early", (7185 / 1000));
    ("lgm0pop_c1_clip_ylo_early", (14 / 100));
    ("lgm0pop_c1_clip_yhi_early", (2 / 1000));
    ("lgm0pop_c1_t_obs_x0_early", (301 / 100)) ]
  [ ("lgm0pop_c1_ytp_early", ((1 / 1000), (1 / 10)));
    ("lgm0pop_c1_ylo_early", ((-5 / 100), (-1 / 1000)));
    ("lgm0pop_c1_clip_x0_early", (4, 11));
    ("lgm0pop_c1_clip_ylo_early", ((2 / 100), (15 / 100)));
    ("lgm0pop_c1_clip_yhi_early", ((1 / 1000), (5 / 100)));
    ("lgm0pop_c1_t_obs_x0_early", (3, 10)) ].

(** diffmahpop_kernels/bimod_logm0_kernels/logm0_c0_late.py:13-19 and 26-32 *)
Definition LGM0_C0_LATE : component := mkComponent
  [ ("lgm0pop_c0_ytp_late", (2 / 100));
    ("lgm0pop_c0_ylo_late", (-14 / 100));
    ("lgm0pop_c0_clip_c0_late", (89 / 100));
    ("lgm0pop_c0_clip_c1_late", (-9 / 100));
    ("lgm0pop_c0_t_obs_x0_late", (2533 / 1000)) ]
  [ ("lgm0pop_c0_ytp_late", ((1 / 100), (4 / 10)));
    ("lgm0pop_c0_ylo_late", ((-15 / 100), (-5 / 100)));
    ("lgm0pop_c0_clip_c0_late", ((5 / 10), (9 / 10)));
    ("lgm0pop_c0_clip_c1_late", ((-1 / 10), (-1 / 100)));
    ("lgm0pop_c0_t_obs_x0_late", ((15 / 10), 6)) ].

(** diffmahpop_kernels/bimod_logm0_kernels/logm0_c1_late.py:13-20 and 25-32 *)
Definition LGM0_C1_LATE : component := mkComponent
  [ ("lgm0pop_c1_ytp_late", (27 / 1000));
    ("lgm0pop_c1_ylo_late", (-48 / 1000));
    ("lgm0pop_c1_clip_x0_late", (8443 / 1000));
    ("lgm0pop_c1_clip_ylo_late", (145 / 1000));
    ("lgm0pop_c1_clip_yhi_late", (2 / 1000));
    ("lgm0pop_c1_t_obs_x0_late", (6377 / 1000)) ]
  [ ("lgm0pop_c1_ytp_late", ((1 / 1000), (1 / 10)));
    ("lgm0pop_c1_ylo_late", ((-5 / 100), (-1 / 1000)));
    ("lgm0pop_c1_clip_x0_late", (4, 11));
    ("lgm0pop_c1_clip_ylo_late", ((2 / 100), (15 / 100)));
    ("lgm0pop_c1_clip_yhi_late", ((1 / 1000), (5 / 100)));
    ("lgm0pop_c1_t_obs_x0_late", (3, 10)) ].

(** diffmahpop_kernels/bimod_logm0_sats/logm0_c0_early.py:13-19 and 26-32 *)
Definition LGM0_C0_EARLY_SATS : component := mkComponent
  [ ("lgm0pop_c0_ytp_early_sats", (18 / 1000));
    ("lgm0pop_c0_ylo_early_sats", (-107 / 1000));
    ("lgm0pop_c0_clip_c0_early_sats", (734 / 1000));
    ("lgm0pop_c0_clip_c1_early_sats", (-85 / 1000));
    ("lgm0pop_c0_t_obs_x0_early_sats", (155 / 100)) ]
  [ ("lgm0pop_c0_ytp_early_sats", ((1 / 100), (4 / 10)));
    ("lgm0pop_c0_ylo_early_sats", ((-15 / 100), (-5 / 100)));
    ("lgm0pop_c0_clip_c0_early_sats", ((5 / 10), (9 / 10)));
    ("lgm0pop_c0_clip_c1_early_sats", ((-1 / 10), (-1 / 100)));
    ("lgm0pop_c0_t_obs_x0_early_sats", ((15 / 10), 6)) ].

(** diffmahpop_kernels/bimod_logm0_sats/logm0_c1_early.py:13-20 and 25-32 *)
Definition LGM0_C1_EARLY_SATS : component := mkComponent
  [ ("lgm0pop_c1_ytp_early_sats", (2 / 1000));
    ("lgm0pop_c1_ylo_early_sats", (-2 / 100));
    ("lgm0pop_c1_clip_x0_early_sats", (10539 / 1000));
    ("lgm0pop_c1_clip_ylo_early_sats", (116 / 1000));
    ("lgm0pop_c1_clip_yhi_early_sats", (48 / 1000));
    ("lgm0pop_c1_t_obs_x0_early_sats", (3031 / 1000)) ]
  [ ("lgm0pop_c1_ytp_early_sats", ((1 / 1000), (1 / 10)));
    ("lgm0pop_c1_ylo_early_sats", ((-5 / 100), (-1 / 1000)));
    ("lgm0pop_c1_clip_x0_early_sats", (4, 11));
    ("lgm0pop_c1_clip_ylo_early_sats", ((2 / 100), (15 / 100)));
    ("lgm0pop_c1_clip_yhi_early_sats", ((1 / 1000), (5 / 100)));
    ("lgm0pop_c1_t_obs_x0_early_sats", (3, 10)) ].

(** diffmahpop_kernels/bimod_logm0_sats/logm0_c0_late.py:13-19 and 26-32 *)
Definition LGM0_C0_LATE_SATS : component := mkComponent
  [ ("lgm0pop_c0_ytp_late_sats", (11 / 1000));
    ("lgm0pop_c0_ylo_late_sats", (-8 / 100));
    ("lgm0pop_c0_clip_c0_late_sats", (521 / 1000));
    ("lgm0pop_c0_clip_c1_late_sats", (-43 / 1000));
    ("lgm0pop_c0_t_obs_x0_late_sats", (1581 / 1000)) ]
  [ ("lgm0pop_c0_ytp_late_sats", ((1 / 100), (4 / 10)));
    ("lgm0pop_c0_ylo_late_sats", ((-15 / 100), (-5 / 100)));
    ("lgm0pop_c0_clip_c0_late_sats", ((5 / 10), (9 / 10)));
    ("lgm0pop_c0_clip_c1_late_sats", ((-1 / 10), (-1 / 100)));
    ("lgm0pop_c0_t_obs_x0_late_sats", ((15 / 10), 6)) ].

(** diffmahpop_kernels/bimod_logm0_sats/logm0_c1_late.py:13-20 and 25-32 *)
Definition LGM0_C1_LATE_SATS : component := mkComponent
  [ ("lgm0pop_c1_ytp_late_sats", (5 / 1000));
    ("lgm0pop_c1_ylo_late_sats", (-14 / 1000));
    ("lgm0pop_c1_clip_x0_late_sats", (10587 / 1000));
    ("lgm0pop_c1_clip_ylo_late_sats", (74 / 1000));
    ("lgm0pop_c1_clip_yhi_late_sats", (37 / 1000));
    ("lgm0pop_c1_t_obs_x0_late_sats", (3781 / 1000)) ]
  [ ("lgm0pop_c1_ytp_late_sats", ((1 / 1000), (1 / 10)));
    ("lgm0pop_c1_ylo_late_sats", ((-5 / 100), (-1 / 1000)));
    ("lgm0pop_c1_clip_x0_late_sats", (4, 11));
    ("lgm0pop_c1_clip_ylo_late_sats", ((2 / 100), (15 / 100)));
    ("lgm0pop_c1_clip_yhi_late_sats", ((1 / 1000), (5 / 100)));
    ("lgm0pop_c1_t_obs_x0_late_sats", (3, 10)) ].

(** diffmahpop_kernels/logtc_early.py:15-22 and 23-30 *)
Definition LOGTC_EARLY : component := mkComponent
  [ ("logtc_lgm_c0_tp_ytp_tobs_c0_early", (447 / 1000));
    ("logtc_lgm_c0_tp_ytp_tobs_c1_early", (2 / 1000));
    ("logtc_lgm_c0_tp_ylo_early", (69 / 1000));
    ("logtc_lgm_c0_tp_yhi_early", (-201 / 1000));
    ("logtc_lgm_c1_early", (13 / 100));
    ("logtc_c0_ss_x0_early", (12221 / 1000)) ]
  [ ("logtc_lgm_c0_tp_ytp_tobs_c0_early", ((2 / 10), (9 / 10)));
    ("logtc_lgm_c0_tp_ytp_tobs_c1_early", (0, (5 / 100)));
    ("logtc_lgm_c0_tp_ylo_early", ((2 / 100), (15 / 100)));
    ("logtc_lgm_c0_tp_yhi_early", ((-25 / 100), 0));
    ("logtc_lgm_c1_early", ((2 / 100), (15 / 100)));
    ("logtc_c0_ss_x0_early", (11, 13)) ].

(** diffmahpop_kernels/logtc_late.py:15-22 and 23-30 *)
Definition LOGTC_LATE : component := mkComponent
  [ ("logtc_lgm_c0_tp_ytp_tobs_c0_late", (898 / 1000));
    ("logtc_lgm_c0_tp_ytp_tobs_c1_late", (5 / 1000));
    ("logtc_lgm_c0_tp_ylo_late", (118 / 1000));
    ("logtc_lgm_c0_tp_yhi_late", (-6 / 1000));
    ("logtc_lgm_c1_late", (146 / 1000));
    ("logtc_c0_ss_x0_late", (11091 / 1000)) ]
  [ ("logtc_lgm_c0_tp_ytp_tobs_c0_late", ((2 / 10), (9 / 10)));
    ("logtc_lgm_c0_tp_ytp_tobs_c1_late", (0, (5 / 100)));
    ("logtc_lgm_c0_tp_ylo_late", ((2 / 100), (15 / 100)));
    ("logtc_lgm_c0_tp_yhi_late", ((-25 / 100), 0));
    ("logtc_lgm_c1_late", ((2 / 100), (15 / 100)));
    ("logtc_c0_ss_x0_late", (11, 13)) ].

(** diffmahpop_kernels/early_index_alpha.py:19-27 and 28-36 *)
Definition EARLY_INDEX_ALPHA : component := mkComponent
  [ ("early_index_ylo_x0_alpha", (4319 / 1000));
    ("early_index_ylo_ylo_alpha", (349 / 100));
    ("early_index_ylo_yhi_alpha", (2985 / 1000));
    ("early_index_yhi_ylo_alpha", (395 / 100));
    ("early_index_yhi_yhi_alpha", (3665 / 1000));
    ("early_index_yhi_x0_alpha", (10405 / 1000));
    ("early_index_lgm_x0_alpha", (12918 / 1000)) ]
  [ ("early_index_ylo_x0_alpha", (1, 7));
    ("early_index_ylo_ylo_alpha", (1, (35 / 10)));
    ("early_index_ylo_yhi_alpha", ((5 / 10), 3));
    ("early_index_yhi_ylo_alpha", (2, 4));
    ("early_index_yhi_yhi_alpha", ((15 / 10), 4));
    ("early_index_yhi_x0_alpha", (4, 13));
    ("early_index_lgm_x0_alpha", (12, 14)) ].

(** diffmahpop_kernels/early_index_beta.py:19-27 and 28-36 *)
Definition EARLY_INDEX_BETA : component := mkComponent
  [ ("early_index_ylo_x0_beta", (1456 / 1000));
    ("early_index_ylo_ylo_beta", (1037 / 1000));
    ("early_index_ylo_yhi_beta", (879 / 1000));
    ("early_index_yhi_ylo_beta", (276 / 100));
    ("early_index_yhi_yhi_beta", (2195 / 1000));
    ("early_index_yhi_x0_beta", (8144 / 1000));
    ("early_index_lgm_x0_beta", (12641 / 1000)) ]
  [ ("early_index_ylo_x0_beta", (1, 7));
    ("early_index_ylo_ylo_beta", (1, (35 / 10)));
    ("early_index_ylo_yhi_beta", ((5 / 10), 3));
    ("early_index_yhi_ylo_beta", (2, 4));
    ("early_index_yhi_yhi_beta", ((15 / 10), 4));
    ("early_index_yhi_x0_beta", (4, 13));
    ("early_index_lgm_x0_beta", (12, 14)) ].

(** diffmahpop_kernels/early_index_pop.py:19-27 and 28-36 *)
Definition EARLY_INDEX_POP : component := mkComponent
  [ ("early_index_ylo_x0", (6072 / 1000));
    ("early_index_ylo_ylo", (3018 / 1000));
    ("early_index_ylo_yhi", (1517 / 1000));
    ("early_index_yhi_ylo", (3204 / 1000));
    ("early_index_yhi_yhi", (2774 / 1000));
    ("early_index_yhi_x0", (10274 / 1000));
    ("early_index_lgm_x0", (13504 / 1000)) ]
  [ ("early_index_ylo_x0", (1, 7));
    ("early_index_ylo_ylo", (1, (35 / 10)));
    ("early_index_ylo_yhi", ((5 / 10), 3));
    ("early_index_yhi_ylo", (2, 4));
    ("early_index_yhi_yhi", ((15 / 10), 4));
    ("early_index_yhi_x0", (4, 13));
    ("early_index_lgm_x0", (12, 14)) ].

(** diffmahpop_kernels/late_index_alpha.py:16-20 and 21-25 *)
Definition LATE_INDEX_ALPHA : component := mkComponent
  [ ("late_index_x0_alpha", (11567 / 1000));
    ("late_index_ylo_alpha", (19 / 100));
    ("late_index_yhi_alpha", (19 / 100)) ]
  [ ("late_index_x0_alpha", ((115 / 10), 14));
    ("late_index_ylo_alpha", ((1 / 100), (2 / 10)));
    ("late_index_yhi_alpha", ((1 / 100), (2 / 10))) ].

(** diffmahpop_kernels/late_index_beta.py:16-20 and 21-25 *)
Definition LATE_INDEX_BETA : component := mkComponent
  [ ("late_index_x0_beta", (11567 / 1000));
    ("late_index_ylo_beta", (19 / 100));
    ("late_index_yhi_beta", (19 / 100)) ]
  [ ("late_index_x0_beta", ((115 / 10), 14));
    ("late_index_ylo_beta", ((1 / 100), (2 / 10)));
    ("late_index_yhi_beta", ((1 / 100), (2 / 10))) ].

(** diffmahpop_kernels/frac_early_cens.py:16-23 and 26-33 *)
Definition FEC : component := mkComponent
  [ ("fec_t_obs_x0", (5485 / 1000));
    ("fec_lgm_x0", (1251 / 100));
    ("fec_lgm_ylo_early", (546 / 1000));
    ("fec_lgm_ylo_late", (421 / 1000));
    ("fec_lgm_yhi_early", (415 / 1000));
    ("fec_lgm_yhi_late", (298 / 1000)) ]
  [ ("fec_t_obs_x0", (5, 13));
    ("fec_lgm_x0", (11, 14));
    ("fec_lgm_ylo_early", ((25 / 100), (75 / 100)));
    ("fec_lgm_ylo_late", ((25 / 100), (75 / 100)));
    ("fec_lgm_yhi_early", ((25 / 100), (75 / 100)));
    ("fec_lgm_yhi_late", ((25 / 100), (75 / 100))) ].

(** diffmahpop_kernels/ftpt0_cens.py:17-17 and 20-22 *)
Definition FTPT0 : component := mkComponent
  [ ("ftpt0_c0_c0", (81 / 1000));
    ("ftpt0_c0_c1", (41 / 1000));
    ("ftpt0_c1", (44 / 1000)) ]
  [ ("ftpt0_c0_c0", ((1 / 100), (99 / 100)));
    ("ftpt0_c0_c1", ((1 / 100), (1 / 10)));
    ("ftpt0_c1", ((1 / 100), (25 / 100))) ].

(** diffmahpop_kernels/covariance_kernels.py:20-39 and 44-63 *)
Definition COV : component := mkComponent
  [ ("std_u_logm0_ylo", (11 / 1000));
    ("std_u_logtc_ylo", (72 / 1000));
    ("std_u_early_ylo", (362 / 1000));
    ("std_u_late_ylo", (186 / 1000));
    ("std_u_logm0_yhi", (47 / 1000));
    ("std_u_logtc_yhi", (2002 / 1000));
    ("std_u_early_yhi", (81 / 1000));
    ("std_u_late_yhi", (22433 / 1000));
    ("rho_logtc_logm0", (-227 / 1000));
    ("rho_early_logm0", (29 / 100));
    ("rho_early_logtc", (21 / 100));
    ("rho_late_logm0", (29 / 100));
    ("rho_late_logtc", (-121 / 1000));
    ("rho_late_early", (-29 / 100));
    ("cov_lgm_x0_logm0", (13716 / 1000));
    ("cov_lgm_x0_logtc", (12988 / 1000));
    ("cov_lgm_x0_early", (1151 / 100));
    ("cov_lgm_x0_late", (139 / 10)) ]
  [ ("std_u_logm0_ylo", ((1 / 100), 100));
    ("std_u_logtc_ylo", ((1 / 100), 100));
    ("std_u_early_ylo", ((1 / 100), 100));
    ("std_u_late_ylo", ((1 / 100), 100));
    ("std_u_logm0_yhi", ((1 / 100), 100));
    ("std_u_logtc_yhi", ((1 / 100), 100));
    ("std_u_early_yhi", ((1 / 100), 100));
    ("std_u_late_yhi", ((1 / 100), 100));
    ("rho_logtc_logm0", ((-3 / 10), (3 / 10)));
    ("rho_early_logm0", ((-3 / 10), (3 / 10)));
    ("rho_early_logtc", ((-3 / 10), (3 / 10)));
    ("rho_late_logm0", ((-3 / 10), (3 / 10)));
    ("rho_late_logtc", ((-3 / 10), (3 / 10)));
    ("rho_late_early", ((-3 / 10), (3 / 10)));
    ("cov_lgm_x0_logm0", ((115 / 10), 14));
    ("cov_lgm_x0_logtc", ((115 / 10), 14));
    ("cov_lgm_x0_early", ((115 / 10), 14));
    ("cov_lgm_x0_late", ((115 / 10), 14)) ].
