(** Generated by tools/gen_data.py. *)
From Coq Require Import String List.
Import ListNotations.
Open Scope string_scope.

(** ries/nonresonant/nist_xrmac/01.txt, verbatim. *)
Definition xrmac_01 : string := "1.00000E-03  7.217E+00  6.820E+00 
1.50000E-03  2.148E+00  1.752E+00 
2.00000E-03  1.059E+00  6.643E-01 
3.00000E-03  5.612E-01  1.693E-01 
4.00000E-03  4.546E-01  6.549E-02 
5.00000E-03  4.193E-01  3.278E-02 
6.00000E-03  4.042E-01  1.996E-02 
8.00000E-03  3.914E-01  1.160E-02 
1.00000E-02  3.854E-01  9.849E-03 
1.50000E-02  3.764E-01  1.102E-02 
2.00000E-02  3.695E-01  1.355E-02 
3.00000E-02  3.570E-01  1.863E-02 
4.00000E-02  3.458E-01  2.315E-02 
5.00000E-02  3.355E-01  2.709E-02 
6.00000E-02  3.260E-01  3.053E-02 
8.00000E-02  3.091E-01  3.620E-02 
1.00000E-01  2.944E-01  4.063E-02 
1.50000E-01  2.651E-01  4.813E-02 
2.00000E-01  2.429E-01  5.254E-02 
3.00000E-01  2.112E-01  5.695E-02 
4.00000E-01  1.893E-01  5.860E-02 
5.00000E-01  1.729E-01  5.900E-02 
6.00000E-01  1.599E-01  5.875E-02 
8.00000E-01  1.405E-01  5.739E-02 
1.00000E+00  1.263E-01  5.556E-02 
1.25000E+00  1.129E-01  5.311E-02 
1.50000E+00  1.027E-01  5.075E-02 
2.00000E+00  8.769E-02  4.650E-02 
3.00000E+00  6.921E-02  3.992E-02 
4.00000E+00  5.806E-02  3.523E-02 
5.00000E+00  5.049E-02  3.174E-02 
6.00000E+00  4.498E-02  2.905E-02 
8.00000E+00  3.746E-02  2.515E-02 
1.00000E+01  3.254E-02  2.247E-02 
1.50000E+01  2.539E-02  1.837E-02 
2.00000E+01  2.153E-02  1.606E-02 
".

(** ries/nonresonant/nist_xrmac/02.txt, verbatim. *)
Definition xrmac_02 : string := "1.00000E-03  6.084E+01  6.045E+01 
1.50000E-03  1.676E+01  1.638E+01 
2.00000E-03  6.863E+00  6.503E+00 
3.00000E-03  2.007E+00  1.681E+00 
4.00000E-03  9.329E-01  6.379E-01 
5.00000E-03  5.766E-01  3.061E-01 
6.00000E-03  4.195E-01  1.671E-01 
8.00000E-03  2.933E-01  6.446E-02 
1.00000E-02  2.476E-01  3.260E-02 
1.50000E-02  2.092E-01  1.246E-02 
2.00000E-02  1.960E-01  9.410E-03 
3.00000E-02  1.838E-01  1.003E-02 
4.00000E-02  1.763E-01  1.190E-02 
5.00000E-02  1.703E-01  1.375E-02 
6.00000E-02  1.651E-01  1.544E-02 
8.00000E-02  1.562E-01  1.826E-02 
1.00000E-01  1.486E-01  2.047E-02 
1.50000E-01  1.336E-01  2.424E-02 
2.00000E-01  1.224E-01  2.647E-02 
3.00000E-01  1.064E-01  2.868E-02 
4.00000E-01  9.535E-02  2.951E-02 
5.00000E-01  8.707E-02  2.971E-02 
6.00000E-01  8.054E-02  2.959E-02 
8.00000E-01  7.076E-02  2.890E-02 
1.00000E+00  6.362E-02  2.797E-02 
1.25000E+00  5.688E-02  2.674E-02 
1.50000E+00  5.173E-02  2.555E-02 
2.00000E+00  4.422E-02  2.343E-02 
3.00000E+00  3.503E-02  2.019E-02 
4.00000E+00  2.949E-02  1.790E-02 
5.00000E+00  2.577E-02  1.622E-02 
6.00000E+00  2.307E-02  1.493E-02 
8.00000E+00  1.940E-02  1.308E-02 
1.00000E+01  1.703E-02  1.183E-02 
1.50000E+01  1.363E-02  9.948E-03 
2.00000E+01  1.183E-02  8.914E-03 
".

(** ries/nonresonant/nist_xrmac/03.txt, verbatim. *)
Definition xrmac_03 : string := "1.00000E-03  2.339E+02  2.335E+02 
1.50000E-03  6.668E+01  6.629E+01 
2.00000E-03  2.707E+01  2.672E+01 
3.00000E-03  7.549E+00  7.249E+00 
4.00000E-03  3.114E+00  2.840E+00 
5.00000E-03  1.619E+00  1.364E+00 
6.00000E-03  9.875E-01  7.477E-01 
8.00000E-03  5.054E-01  2.888E-01 
1.00000E-02  3.395E-01  1.387E-01 
1.50000E-02  2.176E-01  3.910E-02 
2.00000E-02  1.856E-01  1.885E-02 
3.00000E-02  1.644E-01  1.138E-02 
4.00000E-02  1.551E-01  1.131E-02 
5.00000E-02  1.488E-01  1.237E-02 
6.00000E-02  1.438E-01  1.361E-02 
8.00000E-02  1.356E-01  1.588E-02 
1.00000E-01  1.289E-01  1.776E-02 
1.50000E-01  1.158E-01  2.098E-02 
2.00000E-01  1.060E-01  2.290E-02 
3.00000E-01  9.210E-02  2.481E-02 
4.00000E-01  8.249E-02  2.552E-02 
5.00000E-01  7.532E-02  2.569E-02 
6.00000E-01  6.968E-02  2.559E-02 
8.00000E-01  6.121E-02  2.499E-02 
1.00000E+00  5.503E-02  2.419E-02 
1.25000E+00  4.921E-02  2.312E-02 
1.50000E+00  4.476E-02  2.210E-02 
2.00000E+00  3.830E-02  2.028E-02 
3.00000E+00  3.043E-02  1.753E-02 
4.00000E+00  2.572E-02  1.561E-02 
5.00000E+00  2.257E-02  1.422E-02 
6.00000E+00  2.030E-02  1.316E-02 
8.00000E+00  1.725E-02  1.167E-02 
1.00000E+01  1.529E-02  1.066E-02 
1.50000E+01  1.252E-02  9.182E-03 
2.00000E+01  1.109E-02  8.385E-03 
".

(** ries/nonresonant/nist_xrmac/04.txt, verbatim. *)
Definition xrmac_04 : string := "1.00000E-03  6.041E+02  6.035E+02 
1.50000E-03  1.797E+02  1.791E+02 
2.00000E-03  7.469E+01  7.422E+01 
3.00000E-03  2.127E+01  2.090E+01 
4.00000E-03  8.685E+00  8.367E+00 
5.00000E-03  4.369E+00  4.081E+00 
6.00000E-03  2.527E+00  2.260E+00 
8.00000E-03  1.124E+00  8.839E-01 
1.00000E-02  6.466E-01  4.255E-01 
1.50000E-02  3.070E-01  1.143E-01 
2.00000E-02  2.251E-01  4.780E-02 
3.00000E-02  1.792E-01  1.898E-02 
4.00000E-02  1.640E-01  1.438E-02 
5.00000E-02  1.554E-01  1.401E-02 
6.00000E-02  1.493E-01  1.468E-02 
8.00000E-02  1.401E-01  1.658E-02 
1.00000E-01  1.328E-01  1.836E-02 
1.50000E-01  1.190E-01  2.157E-02 
2.00000E-01  1.089E-01  2.353E-02 
3.00000E-01  9.463E-02  2.548E-02 
4.00000E-01  8.471E-02  2.620E-02 
5.00000E-01  7.739E-02  2.639E-02 
6.00000E-01  7.155E-02  2.627E-02 
8.00000E-01  6.286E-02  2.565E-02 
1.00000E+00  5.652E-02  2.483E-02 
1.25000E+00  5.054E-02  2.373E-02 
1.50000E+00  4.597E-02  2.268E-02 
2.00000E+00  3.938E-02  2.083E-02 
3.00000E+00  3.138E-02  1.806E-02 
4.00000E+00  2.664E-02  1.617E-02 
5.00000E+00  2.347E-02  1.479E-02 
6.00000E+00  2.121E-02  1.377E-02 
8.00000E+00  1.819E-02  1.233E-02 
1.00000E+01  1.627E-02  1.138E-02 
1.50000E+01  1.361E-02  1.001E-02 
2.00000E+01  1.227E-02  9.294E-03 
".

(** ries/nonresonant/nist_xrmac/05.txt, verbatim. *)
Definition xrmac_05 : string := "1.00000E-03  1.229E+03  1.228E+03 
1.50000E-03  3.766E+02  3.759E+02 
2.00000E-03  1.597E+02  1.591E+02 
3.00000E-03  4.667E+01  4.617E+01 
4.00000E-03  1.927E+01  1.886E+01 
5.00000E-03  9.683E+00  9.332E+00 
6.00000E-03  5.538E+00  5.223E+00 
8.00000E-03  2.346E+00  2.072E+00 
1.00000E-02  1.255E+00  1.006E+00 
1.50000E-02  4.827E-01  2.698E-01 
2.00000E-02  3.014E-01  1.084E-01 
3.00000E-02  2.063E-01  3.506E-02 
4.00000E-02  1.793E-01  2.084E-02 
5.00000E-02  1.665E-01  1.737E-02 
6.00000E-02  1.583E-01  1.680E-02 
8.00000E-02  1.472E-01  1.785E-02 
1.00000E-01  1.391E-01  1.940E-02 
1.50000E-01  1.243E-01  2.255E-02 
2.00000E-01  1.136E-01  2.453E-02 
3.00000E-01  9.862E-02  2.654E-02 
4.00000E-01  8.834E-02  2.731E-02 
5.00000E-01  8.065E-02  2.749E-02 
6.00000E-01  7.460E-02  2.737E-02 
8.00000E-01  6.549E-02  2.671E-02 
1.00000E+00  5.890E-02  2.586E-02 
1.25000E+00  5.266E-02  2.472E-02 
1.50000E+00  4.791E-02  2.362E-02 
2.00000E+00  4.108E-02  2.171E-02 
3.00000E+00  3.284E-02  1.889E-02 
4.00000E+00  2.798E-02  1.698E-02 
5.00000E+00  2.476E-02  1.562E-02 
6.00000E+00  2.248E-02  1.461E-02 
8.00000E+00  1.945E-02  1.322E-02 
1.00000E+01  1.755E-02  1.232E-02 
1.50000E+01  1.495E-02  1.104E-02 
2.00000E+01  1.368E-02  1.039E-02 
".

(** ries/nonresonant/nist_xrmac/06.txt, verbatim. *)
Definition xrmac_06 : string := "1.00000E-03  2.211E+03  2.209E+03 
1.50000E-03  7.002E+02  6.990E+02 
2.00000E-03  3.026E+02  3.016E+02 
3.00000E-03  9.033E+01  8.963E+01 
4.00000E-03  3.778E+01  3.723E+01 
5.00000E-03  1.912E+01  1.866E+01 
6.00000E-03  1.095E+01  1.054E+01 
8.00000E-03  4.576E+00  4.242E+00 
1.00000E-02  2.373E+00  2.078E+00 
1.50000E-02  8.071E-01  5.627E-01 
2.00000E-02  4.420E-01  2.238E-01 
3.00000E-02  2.562E-01  6.614E-02 
4.00000E-02  2.076E-01  3.343E-02 
5.00000E-02  1.871E-01  2.397E-02 
6.00000E-02  1.753E-01  2.098E-02 
8.00000E-02  1.610E-01  2.037E-02 
1.00000E-01  1.514E-01  2.147E-02 
1.50000E-01  1.347E-01  2.449E-02 
2.00000E-01  1.229E-01  2.655E-02 
3.00000E-01  1.066E-01  2.870E-02 
4.00000E-01  9.546E-02  2.950E-02 
5.00000E-01  8.715E-02  2.969E-02 
6.00000E-01  8.058E-02  2.956E-02 
8.00000E-01  7.076E-02  2.885E-02 
1.00000E+00  6.361E-02  2.792E-02 
1.25000E+00  5.690E-02  2.669E-02 
1.50000E+00  5.179E-02  2.551E-02 
2.00000E+00  4.442E-02  2.345E-02 
3.00000E+00  3.562E-02  2.048E-02 
4.00000E+00  3.047E-02  1.849E-02 
5.00000E+00  2.708E-02  1.710E-02 
6.00000E+00  2.469E-02  1.607E-02 
8.00000E+00  2.154E-02  1.468E-02 
1.00000E+01  1.959E-02  1.380E-02 
1.50000E+01  1.698E-02  1.258E-02 
2.00000E+01  1.575E-02  1.198E-02 
".

(** ries/nonresonant/nist_xrmac/07.txt, verbatim. *)
Definition xrmac_07 : string := "1.00000E-03  3.311E+03  3.306E+03 
1.50000E-03  1.083E+03  1.080E+03 
2.00000E-03  4.769E+02  4.755E+02 
3.00000E-03  1.456E+02  1.447E+02 
4.00000E-03  6.166E+01  6.094E+01 
5.00000E-03  3.144E+01  3.086E+01 
6.00000E-03  1.809E+01  1.759E+01 
8.00000E-03  7.562E+00  7.170E+00 
1.00000E-02  3.879E+00  3.545E+00 
1.50000E-02  1.236E+00  9.715E-01 
2.00000E-02  6.178E-01  3.867E-01 
3.00000E-02  3.066E-01  1.099E-01 
4.00000E-02  2.288E-01  5.051E-02 
5.00000E-02  1.980E-01  3.217E-02 
6.00000E-02  1.817E-01  2.548E-02 
8.00000E-02  1.639E-01  2.211E-02 
1.00000E-01  1.529E-01  2.231E-02 
1.50000E-01  1.353E-01  2.472E-02 
2.00000E-01  1.233E-01  2.665E-02 
3.00000E-01  1.068E-01  2.873E-02 
4.00000E-01  9.557E-02  2.952E-02 
5.00000E-01  8.719E-02  2.969E-02 
6.00000E-01  8.063E-02  2.956E-02 
8.00000E-01  7.081E-02  2.886E-02 
1.00000E+00  6.364E-02  2.792E-02 
1.25000E+00  5.693E-02  2.669E-02 
1.50000E+00  5.180E-02  2.550E-02 
2.00000E+00  4.450E-02  2.347E-02 
3.00000E+00  3.579E-02  2.057E-02 
4.00000E+00  3.073E-02  1.867E-02 
5.00000E+00  2.742E-02  1.734E-02 
6.00000E+00  2.511E-02  1.639E-02 
8.00000E+00  2.209E-02  1.512E-02 
1.00000E+01  2.024E-02  1.434E-02 
1.50000E+01  1.782E-02  1.332E-02 
2.00000E+01  1.673E-02  1.285E-02 
".

(** ries/nonresonant/nist_xrmac/08.txt, verbatim. *)
Definition xrmac_08 : string := "1.00000E-03  4.590E+03  4.576E+03 
1.50000E-03  1.549E+03  1.545E+03 
2.00000E-03  6.949E+02  6.926E+02 
3.00000E-03  2.171E+02  2.158E+02 
4.00000E-03  9.315E+01  9.221E+01 
5.00000E-03  4.790E+01  4.715E+01 
6.00000E-03  2.770E+01  2.708E+01 
8.00000E-03  1.163E+01  1.116E+01 
1.00000E-02  5.952E+00  5.565E+00 
1.50000E-02  1.836E+00  1.545E+00 
2.00000E-02  8.651E-01  6.179E-01 
3.00000E-02  3.779E-01  1.729E-01 
4.00000E-02  2.585E-01  7.530E-02 
5.00000E-02  2.132E-01  4.414E-02 
6.00000E-02  1.907E-01  3.207E-02 
8.00000E-02  1.678E-01  2.468E-02 
1.00000E-01  1.551E-01  2.355E-02 
1.50000E-01  1.361E-01  2.506E-02 
2.00000E-01  1.237E-01  2.679E-02 
3.00000E-01  1.070E-01  2.877E-02 
4.00000E-01  9.566E-02  2.953E-02 
5.00000E-01  8.729E-02  2.971E-02 
6.00000E-01  8.070E-02  2.957E-02 
8.00000E-01  7.087E-02  2.887E-02 
1.00000E+00  6.372E-02  2.794E-02 
1.25000E+00  5.697E-02  2.669E-02 
1.50000E+00  5.185E-02  2.551E-02 
2.00000E+00  4.459E-02  2.350E-02 
3.00000E+00  3.597E-02  2.066E-02 
4.00000E+00  3.100E-02  1.882E-02 
5.00000E+00  2.777E-02  1.757E-02 
6.00000E+00  2.552E-02  1.668E-02 
8.00000E+00  2.263E-02  1.553E-02 
1.00000E+01  2.089E-02  1.483E-02 
1.50000E+01  1.866E-02  1.396E-02 
2.00000E+01  1.770E-02  1.360E-02 
".

(** ries/nonresonant/nist_xrmac/09.txt, verbatim. *)
Definition xrmac_09 : string := "1.00000E-03  5.649E+03  5.615E+03 
1.50000E-03  1.979E+03  1.969E+03 
2.00000E-03  9.047E+02  9.005E+02 
3.00000E-03  2.888E+02  2.870E+02 
4.00000E-03  1.256E+02  1.244E+02 
5.00000E-03  6.514E+01  6.424E+01 
6.00000E-03  3.789E+01  3.716E+01 
8.00000E-03  1.602E+01  1.548E+01 
1.00000E-02  8.205E+00  7.776E+00 
1.50000E-02  2.492E+00  2.186E+00 
2.00000E-02  1.133E+00  8.796E-01 
3.00000E-02  4.487E-01  2.451E-01 
4.00000E-02  2.828E-01  1.036E-01 
5.00000E-02  2.214E-01  5.747E-02 
6.00000E-02  1.920E-01  3.903E-02 
8.00000E-02  1.639E-01  2.676E-02 
1.00000E-01  1.496E-01  2.394E-02 
1.50000E-01  1.298E-01  2.417E-02 
2.00000E-01  1.176E-01  2.554E-02 
3.00000E-01  1.015E-01  2.729E-02 
4.00000E-01  9.073E-02  2.800E-02 
5.00000E-01  8.274E-02  2.815E-02 
6.00000E-01  7.649E-02  2.801E-02 
8.00000E-01  6.717E-02  2.734E-02 
1.00000E+00  6.037E-02  2.645E-02 
1.25000E+00  5.399E-02  2.527E-02 
1.50000E+00  4.915E-02  2.416E-02 
2.00000E+00  4.228E-02  2.226E-02 
3.00000E+00  3.422E-02  1.964E-02 
4.00000E+00  2.960E-02  1.797E-02 
5.00000E+00  2.663E-02  1.685E-02 
6.00000E+00  2.457E-02  1.607E-02 
8.00000E+00  2.195E-02  1.508E-02 
1.00000E+01  2.039E-02  1.451E-02 
1.50000E+01  1.846E-02  1.382E-02 
2.00000E+01  1.769E-02  1.357E-02 
".

(** ries/nonresonant/nist_xrmac/10.txt, verbatim. *)
Definition xrmac_10 : string := "1.00000E-03  7.409E+03  7.326E+03 
1.50000E-03  2.666E+03  2.645E+03 
2.00000E-03  1.243E+03  1.234E+03 
3.00000E-03  4.051E+02  4.021E+02 
4.00000E-03  1.785E+02  1.767E+02 
5.00000E-03  9.339E+01  9.214E+01 
6.00000E-03  5.467E+01  5.369E+01 
8.00000E-03  2.328E+01  2.260E+01 
1.00000E-02  1.197E+01  1.143E+01 
1.50000E-02  3.613E+00  3.253E+00 
2.00000E-02  1.606E+00  1.317E+00 
3.00000E-02  5.923E-01  3.676E-01 
4.00000E-02  3.473E-01  1.528E-01 
5.00000E-02  2.579E-01  8.182E-02 
6.00000E-02  2.161E-01  5.287E-02 
8.00000E-02  1.781E-01  3.273E-02 
1.00000E-01  1.600E-01  2.733E-02 
1.50000E-01  1.370E-01  2.590E-02 
2.00000E-01  1.236E-01  2.697E-02 
3.00000E-01  1.064E-01  2.862E-02 
4.00000E-01  9.502E-02  2.931E-02 
5.00000E-01  8.664E-02  2.946E-02 
6.00000E-01  8.006E-02  2.930E-02 
8.00000E-01  7.029E-02  2.860E-02 
1.00000E+00  6.316E-02  2.766E-02 
1.25000E+00  5.646E-02  2.641E-02 
1.50000E+00  5.145E-02  2.526E-02 
2.00000E+00  4.430E-02  2.330E-02 
3.00000E+00  3.594E-02  2.061E-02 
4.00000E+00  3.122E-02  1.894E-02 
5.00000E+00  2.818E-02  1.784E-02 
6.00000E+00  2.610E-02  1.709E-02 
8.00000E+00  2.348E-02  1.616E-02 
1.00000E+01  2.197E-02  1.564E-02 
1.50000E+01  2.013E-02  1.508E-02 
2.00000E+01  1.946E-02  1.491E-02 
".

(** ries/nonresonant/nist_xrmac/11.txt, verbatim. *)
Definition xrmac_11 : string := "   1.00000E-03  6.542E+02  6.522E+02 
   1.03542E-03  5.960E+02  5.941E+02 
   1.07210E-03  5.429E+02  5.410E+02 
K  1.07210E-03  6.435E+03  6.320E+03 
   1.50000E-03  3.194E+03  3.151E+03 
   2.00000E-03  1.521E+03  1.504E+03 
   3.00000E-03  5.070E+02  5.023E+02 
   4.00000E-03  2.261E+02  2.238E+02 
   5.00000E-03  1.194E+02  1.178E+02 
   6.00000E-03  7.030E+01  6.915E+01 
   8.00000E-03  3.018E+01  2.941E+01 
   1.00000E-02  1.557E+01  1.499E+01 
   1.50000E-02  4.694E+00  4.313E+00 
   2.00000E-02  2.057E+00  1.759E+00 
   3.00000E-02  7.197E-01  4.928E-01 
   4.00000E-02  3.969E-01  2.031E-01 
   5.00000E-02  2.804E-01  1.063E-01 
   6.00000E-02  2.268E-01  6.625E-02 
   8.00000E-02  1.796E-01  3.761E-02 
   1.00000E-01  1.585E-01  2.931E-02 
   1.50000E-01  1.335E-01  2.579E-02 
   2.00000E-01  1.199E-01  2.635E-02 
   3.00000E-01  1.029E-01  2.771E-02 
   4.00000E-01  9.185E-02  2.833E-02 
   5.00000E-01  8.372E-02  2.845E-02 
   6.00000E-01  7.736E-02  2.830E-02 
   8.00000E-01  6.788E-02  2.760E-02 
   1.00000E+00  6.100E-02  2.669E-02 
   1.25000E+00  5.454E-02  2.549E-02 
   1.50000E+00  4.968E-02  2.437E-02 
   2.00000E+00  4.282E-02  2.249E-02 
   3.00000E+00  3.487E-02  1.997E-02 
   4.00000E+00  3.037E-02  1.842E-02 
   5.00000E+00  2.753E-02  1.743E-02 
   6.00000E+00  2.559E-02  1.675E-02 
   8.00000E+00  2.319E-02  1.595E-02 
   1.00000E+01  2.181E-02  1.552E-02 
   1.50000E+01  2.023E-02  1.508E-02 
   2.00000E+01  1.970E-02  1.496E-02 
".

(** ries/nonresonant/nist_xrmac/12.txt, verbatim. *)
Definition xrmac_12 : string := "   1.00000E-03  9.225E+02  9.203E+02 
   1.14237E-03  6.474E+02  6.452E+02 
   1.30500E-03  4.530E+02  4.509E+02 
K  1.30500E-03  5.444E+03  5.310E+03 
   1.50000E-03  4.004E+03  3.918E+03 
   2.00000E-03  1.932E+03  1.899E+03 
   3.00000E-03  6.585E+02  6.499E+02 
   4.00000E-03  2.974E+02  2.937E+02 
   5.00000E-03  1.583E+02  1.561E+02 
   6.00000E-03  9.381E+01  9.227E+01 
   8.00000E-03  4.061E+01  3.965E+01 
   1.00000E-02  2.105E+01  2.036E+01 
   1.50000E-02  6.358E+00  5.925E+00 
   2.00000E-02  2.763E+00  2.432E+00 
   3.00000E-02  9.306E-01  6.855E-01 
   4.00000E-02  4.881E-01  2.815E-01 
   5.00000E-02  3.292E-01  1.451E-01 
   6.00000E-02  2.570E-01  8.820E-02 
   8.00000E-02  1.951E-01  4.671E-02 
   1.00000E-01  1.686E-01  3.410E-02 
   1.50000E-01  1.394E-01  2.766E-02 
   2.00000E-01  1.245E-01  2.761E-02 
   3.00000E-01  1.065E-01  2.871E-02 
   4.00000E-01  9.492E-02  2.928E-02 
   5.00000E-01  8.647E-02  2.938E-02 
   6.00000E-01  7.988E-02  2.921E-02 
   8.00000E-01  7.008E-02  2.848E-02 
   1.00000E+00  6.296E-02  2.753E-02 
   1.25000E+00  5.629E-02  2.629E-02 
   1.50000E+00  5.129E-02  2.514E-02 
   2.00000E+00  4.426E-02  2.322E-02 
   3.00000E+00  3.613E-02  2.067E-02 
   4.00000E+00  3.159E-02  1.915E-02 
   5.00000E+00  2.873E-02  1.819E-02 
   6.00000E+00  2.681E-02  1.756E-02 
   8.00000E+00  2.445E-02  1.683E-02 
   1.00000E+01  2.313E-02  1.646E-02 
   1.50000E+01  2.168E-02  1.614E-02 
   2.00000E+01  2.127E-02  1.609E-02 
".

(** ries/nonresonant/nist_xrmac/13.txt, verbatim. *)
Definition xrmac_13 : string := "   1.00000E-03  1.185E+03  1.183E+03 
   1.50000E-03  4.022E+02  4.001E+02 
   1.55960E-03  3.621E+02  3.600E+02 
K  1.55960E-03  3.957E+03  3.829E+03 
   2.00000E-03  2.263E+03  2.204E+03 
   3.00000E-03  7.880E+02  7.732E+02 
   4.00000E-03  3.605E+02  3.545E+02 
   5.00000E-03  1.934E+02  1.902E+02 
   6.00000E-03  1.153E+02  1.133E+02 
   8.00000E-03  5.033E+01  4.918E+01 
   1.00000E-02  2.623E+01  2.543E+01 
   1.50000E-02  7.955E+00  7.487E+00 
   2.00000E-02  3.441E+00  3.094E+00 
   3.00000E-02  1.128E+00  8.778E-01 
   4.00000E-02  5.685E-01  3.601E-01 
   5.00000E-02  3.681E-01  1.840E-01 
   6.00000E-02  2.778E-01  1.099E-01 
   8.00000E-02  2.018E-01  5.511E-02 
   1.00000E-01  1.704E-01  3.794E-02 
   1.50000E-01  1.378E-01  2.827E-02 
   2.00000E-01  1.223E-01  2.745E-02 
   3.00000E-01  1.042E-01  2.816E-02 
   4.00000E-01  9.276E-02  2.862E-02 
   5.00000E-01  8.445E-02  2.868E-02 
   6.00000E-01  7.802E-02  2.851E-02 
   8.00000E-01  6.841E-02  2.778E-02 
   1.00000E+00  6.146E-02  2.686E-02 
   1.25000E+00  5.496E-02  2.565E-02 
   1.50000E+00  5.006E-02  2.451E-02 
   2.00000E+00  4.324E-02  2.266E-02 
   3.00000E+00  3.541E-02  2.024E-02 
   4.00000E+00  3.106E-02  1.882E-02 
   5.00000E+00  2.836E-02  1.795E-02 
   6.00000E+00  2.655E-02  1.739E-02 
   8.00000E+00  2.437E-02  1.678E-02 
   1.00000E+01  2.318E-02  1.650E-02 
   1.50000E+01  2.195E-02  1.631E-02 
   2.00000E+01  2.168E-02  1.633E-02 
".

(** ries/nonresonant/nist_xrmac/14.txt, verbatim. *)
Definition xrmac_14 : string := "   1.00000E-03  1.570E+03  1.567E+03 
   1.50000E-03  5.355E+02  5.331E+02 
   1.83890E-03  3.092E+02  3.070E+02 
K  1.83890E-03  3.192E+03  3.059E+03 
   2.00000E-03  2.777E+03  2.669E+03 
   3.00000E-03  9.784E+02  9.516E+02 
   4.00000E-03  4.529E+02  4.427E+02 
   5.00000E-03  2.450E+02  2.400E+02 
   6.00000E-03  1.470E+02  1.439E+02 
   8.00000E-03  6.468E+01  6.313E+01 
   1.00000E-02  3.389E+01  3.289E+01 
   1.50000E-02  1.034E+01  9.794E+00 
   2.00000E-02  4.464E+00  4.076E+00 
   3.00000E-02  1.436E+00  1.164E+00 
   4.00000E-02  7.012E-01  4.782E-01 
   5.00000E-02  4.385E-01  2.430E-01 
   6.00000E-02  3.207E-01  1.434E-01 
   8.00000E-02  2.228E-01  6.896E-02 
   1.00000E-01  1.835E-01  4.513E-02 
   1.50000E-01  1.448E-01  3.086E-02 
   2.00000E-01  1.275E-01  2.905E-02 
   3.00000E-01  1.082E-01  2.932E-02 
   4.00000E-01  9.614E-02  2.968E-02 
   5.00000E-01  8.748E-02  2.971E-02 
   6.00000E-01  8.077E-02  2.951E-02 
   8.00000E-01  7.082E-02  2.875E-02 
   1.00000E+00  6.361E-02  2.778E-02 
   1.25000E+00  5.688E-02  2.652E-02 
   1.50000E+00  5.183E-02  2.535E-02 
   2.00000E+00  4.480E-02  2.345E-02 
   3.00000E+00  3.678E-02  2.101E-02 
   4.00000E+00  3.240E-02  1.963E-02 
   5.00000E+00  2.967E-02  1.878E-02 
   6.00000E+00  2.788E-02  1.827E-02 
   8.00000E+00  2.574E-02  1.773E-02 
   1.00000E+01  2.462E-02  1.753E-02 
   1.50000E+01  2.352E-02  1.746E-02 
   2.00000E+01  2.338E-02  1.757E-02 
".

(** ries/nonresonant/nist_xrmac/15.txt, verbatim. *)
Definition xrmac_15 : string := "   1.00000E-03  1.913E+03  1.910E+03 
   1.50000E-03  6.547E+02  6.522E+02 
   2.00000E-03  3.018E+02  2.996E+02 
   2.14550E-03  2.494E+02  2.473E+02 
K  2.14550E-03  2.473E+03  2.343E+03 
   3.00000E-03  1.118E+03  1.074E+03 
   4.00000E-03  5.242E+02  5.079E+02 
   5.00000E-03  2.860E+02  2.782E+02 
   6.00000E-03  1.726E+02  1.682E+02 
   8.00000E-03  7.660E+01  7.457E+01 
   1.00000E-02  4.035E+01  3.912E+01 
   1.50000E-02  1.239E+01  1.179E+01 
   2.00000E-02  5.352E+00  4.939E+00 
   3.00000E-02  1.700E+00  1.422E+00 
   4.00000E-02  8.096E-01  5.850E-01 
   5.00000E-02  4.916E-01  2.965E-01 
   6.00000E-02  3.494E-01  1.735E-01 
   8.00000E-02  2.324E-01  8.083E-02 
   1.00000E-01  1.865E-01  5.068E-02 
   1.50000E-01  1.432E-01  3.188E-02 
   2.00000E-01  1.250E-01  2.899E-02 
   3.00000E-01  1.055E-01  2.870E-02 
   4.00000E-01  9.359E-02  2.892E-02 
   5.00000E-01  8.511E-02  2.891E-02 
   6.00000E-01  7.854E-02  2.869E-02 
   8.00000E-01  6.884E-02  2.793E-02 
   1.00000E+00  6.182E-02  2.698E-02 
   1.25000E+00  5.526E-02  2.575E-02 
   1.50000E+00  5.039E-02  2.462E-02 
   2.00000E+00  4.358E-02  2.279E-02 
   3.00000E+00  3.590E-02  2.049E-02 
   4.00000E+00  3.172E-02  1.921E-02 
   5.00000E+00  2.915E-02  1.846E-02 
   6.00000E+00  2.747E-02  1.801E-02 
   8.00000E+00  2.552E-02  1.760E-02 
   1.00000E+01  2.452E-02  1.747E-02 
   1.50000E+01  2.364E-02  1.754E-02 
   2.00000E+01  2.363E-02  1.771E-02 
".

(** ries/nonresonant/nist_xrmac/16.txt, verbatim. *)
Definition xrmac_16 : string := "   1.00000E-03  2.429E+03  2.426E+03 
   1.50000E-03  8.342E+02  8.314E+02 
   2.00000E-03  3.853E+02  3.828E+02 
   2.47200E-03  2.168E+02  2.145E+02 
K  2.47200E-03  2.070E+03  1.935E+03 
   3.00000E-03  1.339E+03  1.265E+03 
   4.00000E-03  6.338E+02  6.066E+02 
   5.00000E-03  3.487E+02  3.360E+02 
   6.00000E-03  2.116E+02  2.046E+02 
   8.00000E-03  9.465E+01  9.171E+01 
   1.00000E-02  5.012E+01  4.847E+01 
   1.50000E-02  1.550E+01  1.477E+01 
   2.00000E-02  6.708E+00  6.235E+00 
   3.00000E-02  2.113E+00  1.809E+00 
   4.00000E-02  9.872E-01  7.466E-01 
   5.00000E-02  5.849E-01  3.779E-01 
   6.00000E-02  4.053E-01  2.199E-01 
   8.00000E-02  2.585E-01  1.000E-01 
   1.00000E-01  2.020E-01  6.052E-02 
   1.50000E-01  1.506E-01  3.516E-02 
   2.00000E-01  1.302E-01  3.080E-02 
   3.00000E-01  1.091E-01  2.983E-02 
   4.00000E-01  9.665E-02  2.991E-02 
   5.00000E-01  8.781E-02  2.984E-02 
   6.00000E-01  8.102E-02  2.959E-02 
   8.00000E-01  7.098E-02  2.878E-02 
   1.00000E+00  6.373E-02  2.780E-02 
   1.25000E+00  5.697E-02  2.652E-02 
   1.50000E+00  5.193E-02  2.535E-02 
   2.00000E+00  4.498E-02  2.349E-02 
   3.00000E+00  3.715E-02  2.118E-02 
   4.00000E+00  3.293E-02  1.993E-02 
   5.00000E+00  3.036E-02  1.923E-02 
   6.00000E+00  2.872E-02  1.884E-02 
   8.00000E+00  2.682E-02  1.850E-02 
   1.00000E+01  2.589E-02  1.845E-02 
   1.50000E+01  2.517E-02  1.864E-02 
   2.00000E+01  2.529E-02  1.889E-02 
".

(** ries/nonresonant/nist_xrmac/17.txt, verbatim. *)
Definition xrmac_17 : string := "   1.00000E-03  2.832E+03  2.829E+03 
   1.50000E-03  9.771E+02  9.742E+02 
   2.00000E-03  4.520E+02  4.494E+02 
   2.82240E-03  1.774E+02  1.752E+02 
K  2.82240E-03  1.637E+03  1.506E+03 
   3.00000E-03  1.473E+03  1.361E+03 
   4.00000E-03  7.037E+02  6.626E+02 
   5.00000E-03  3.901E+02  3.711E+02 
   6.00000E-03  2.384E+02  2.282E+02 
   8.00000E-03  1.075E+02  1.034E+02 
   1.00000E-02  5.725E+01  5.510E+01 
   1.50000E-02  1.784E+01  1.700E+01 
   2.00000E-02  7.739E+00  7.227E+00 
   3.00000E-02  2.425E+00  2.114E+00 
   4.00000E-02  1.117E+00  8.756E-01 
   5.00000E-02  6.483E-01  4.433E-01 
   6.00000E-02  4.395E-01  2.570E-01 
   8.00000E-02  2.696E-01  1.148E-01 
   1.00000E-01  2.050E-01  6.745E-02 
   1.50000E-01  1.480E-01  3.639E-02 
   2.00000E-01  1.266E-01  3.067E-02 
   3.00000E-01  1.054E-01  2.898E-02 
   4.00000E-01  9.311E-02  2.887E-02 
   5.00000E-01  8.453E-02  2.874E-02 
   6.00000E-01  7.795E-02  2.847E-02 
   8.00000E-01  6.826E-02  2.767E-02 
   1.00000E+00  6.128E-02  2.671E-02 
   1.25000E+00  5.478E-02  2.549E-02 
   1.50000E+00  4.994E-02  2.436E-02 
   2.00000E+00  4.328E-02  2.258E-02 
   3.00000E+00  3.585E-02  2.043E-02 
   4.00000E+00  3.188E-02  1.931E-02 
   5.00000E+00  2.950E-02  1.871E-02 
   6.00000E+00  2.798E-02  1.839E-02 
   8.00000E+00  2.628E-02  1.819E-02 
   1.00000E+01  2.549E-02  1.824E-02 
   1.50000E+01  2.496E-02  1.861E-02 
   2.00000E+01  2.520E-02  1.899E-02 
".

(** ries/nonresonant/nist_xrmac/18.txt, verbatim. *)
Definition xrmac_18 : string := "   1.00000E-03  3.184E+03  3.180E+03 
   1.50000E-03  1.105E+03  1.102E+03 
   2.00000E-03  5.120E+02  5.093E+02 
   3.00000E-03  1.703E+02  1.682E+02 
   3.20290E-03  1.424E+02  1.403E+02 
K  3.20290E-03  1.275E+03  1.153E+03 
   4.00000E-03  7.572E+02  6.979E+02 
   5.00000E-03  4.225E+02  3.953E+02 
   6.00000E-03  2.593E+02  2.449E+02 
   8.00000E-03  1.180E+02  1.125E+02 
   1.00000E-02  6.316E+01  6.038E+01 
   1.50000E-02  1.983E+01  1.886E+01 
   2.00000E-02  8.629E+00  8.074E+00 
   3.00000E-02  2.697E+00  2.382E+00 
   4.00000E-02  1.228E+00  9.907E-01 
   5.00000E-02  7.012E-01  5.020E-01 
   6.00000E-02  4.664E-01  2.904E-01 
   8.00000E-02  2.760E-01  1.280E-01 
   1.00000E-01  2.043E-01  7.344E-02 
   1.50000E-01  1.427E-01  3.703E-02 
   2.00000E-01  1.205E-01  2.998E-02 
   3.00000E-01  9.953E-02  2.757E-02 
   4.00000E-01  8.776E-02  2.727E-02 
   5.00000E-01  7.958E-02  2.708E-02 
   6.00000E-01  7.335E-02  2.679E-02 
   8.00000E-01  6.419E-02  2.601E-02 
   1.00000E+00  5.762E-02  2.510E-02 
   1.25000E+00  5.150E-02  2.394E-02 
   1.50000E+00  4.695E-02  2.288E-02 
   2.00000E+00  4.074E-02  2.123E-02 
   3.00000E+00  3.384E-02  1.927E-02 
   4.00000E+00  3.019E-02  1.827E-02 
   5.00000E+00  2.802E-02  1.777E-02 
   6.00000E+00  2.667E-02  1.753E-02 
   8.00000E+00  2.517E-02  1.742E-02 
   1.00000E+01  2.451E-02  1.754E-02 
   1.50000E+01  2.418E-02  1.800E-02 
   2.00000E+01  2.453E-02  1.842E-02 
".

(** ries/nonresonant/nist_xrmac/19.txt, verbatim. *)
Definition xrmac_19 : string := "   1.00000E-03  4.867E+03  4.861E+03 
   1.50000E-03  1.714E+03  1.710E+03 
   2.00000E-03  7.999E+02  7.966E+02 
   3.00000E-03  2.676E+02  2.650E+02 
   4.00000E-03  1.218E+02  1.197E+02 
   4.03810E-03  1.187E+02  1.166E+02 
K  4.03810E-03  1.023E+03  8.887E+02 
   5.00000E-03  6.026E+02  5.373E+02 
   6.00000E-03  3.731E+02  3.387E+02 
   8.00000E-03  1.726E+02  1.600E+02 
   1.00000E-02  9.341E+01  8.744E+01 
   1.50000E-02  2.979E+01  2.804E+01 
   2.00000E-02  1.306E+01  1.220E+01 
   3.00000E-02  4.080E+00  3.665E+00 
   4.00000E-02  1.830E+00  1.538E+00 
   5.00000E-02  1.019E+00  7.822E-01 
   6.00000E-02  6.578E-01  4.520E-01 
   8.00000E-02  3.656E-01  1.958E-01 
   1.00000E-01  2.571E-01  1.085E-01 
   1.50000E-01  1.674E-01  4.876E-02 
   2.00000E-01  1.376E-01  3.639E-02 
   3.00000E-01  1.116E-01  3.146E-02 
   4.00000E-01  9.783E-02  3.060E-02 
   5.00000E-01  8.851E-02  3.019E-02 
   6.00000E-01  8.148E-02  2.979E-02 
   8.00000E-01  7.122E-02  2.884E-02 
   1.00000E+00  6.388E-02  2.780E-02 
   1.25000E+00  5.709E-02  2.650E-02 
   1.50000E+00  5.207E-02  2.532E-02 
   2.00000E+00  4.524E-02  2.352E-02 
   3.00000E+00  3.780E-02  2.147E-02 
   4.00000E+00  3.395E-02  2.052E-02 
   5.00000E+00  3.170E-02  2.007E-02 
   6.00000E+00  3.035E-02  1.992E-02 
   8.00000E+00  2.892E-02  1.997E-02 
   1.00000E+01  2.839E-02  2.022E-02 
   1.50000E+01  2.838E-02  2.088E-02 
   2.00000E+01  2.903E-02  2.140E-02 
".

(** ries/nonresonant/nist_xrmac/20.txt, verbatim. *)
Definition xrmac_20 : string := "   1.00000E-03  4.867E+03  4.861E+03 
   1.50000E-03  1.714E+03  1.710E+03 
   2.00000E-03  7.999E+02  7.966E+02 
   3.00000E-03  2.676E+02  2.650E+02 
   4.00000E-03  1.218E+02  1.197E+02 
   4.03810E-03  1.187E+02  1.166E+02 
K  4.03810E-03  1.023E+03  8.887E+02 
   5.00000E-03  6.026E+02  5.373E+02 
   6.00000E-03  3.731E+02  3.387E+02 
   8.00000E-03  1.726E+02  1.600E+02 
   1.00000E-02  9.341E+01  8.744E+01 
   1.50000E-02  2.979E+01  2.804E+01 
   2.00000E-02  1.306E+01  1.220E+01 
   3.00000E-02  4.080E+00  3.665E+00 
   4.00000E-02  1.830E+00  1.538E+00 
   5.00000E-02  1.019E+00  7.822E-01 
   6.00000E-02  6.578E-01  4.520E-01 
   8.00000E-02  3.656E-01  1.958E-01 
   1.00000E-01  2.571E-01  1.085E-01 
   1.50000E-01  1.674E-01  4.876E-02 
   2.00000E-01  1.376E-01  3.639E-02 
   3.00000E-01  1.116E-01  3.146E-02 
   4.00000E-01  9.783E-02  3.060E-02 
   5.00000E-01  8.851E-02  3.019E-02 
   6.00000E-01  8.148E-02  2.979E-02 
   8.00000E-01  7.122E-02  2.884E-02 
   1.00000E+00  6.388E-02  2.780E-02 
   1.25000E+00  5.709E-02  2.650E-02 
   1.50000E+00  5.207E-02  2.532E-02 
   2.00000E+00  4.524E-02  2.352E-02 
   3.00000E+00  3.780E-02  2.147E-02 
   4.00000E+00  3.395E-02  2.052E-02 
   5.00000E+00  3.170E-02  2.007E-02 
   6.00000E+00  3.035E-02  1.992E-02 
   8.00000E+00  2.892E-02  1.997E-02 
   1.00000E+01  2.839E-02  2.022E-02 
   1.50000E+01  2.838E-02  2.088E-02 
   2.00000E+01  2.903E-02  2.140E-02 
".

(** ries/nonresonant/nist_xrmac/21.txt, verbatim. *)
Definition xrmac_21 : string := "   1.00000E-03  5.238E+03  5.231E+03 
   1.50000E-03  1.858E+03  1.853E+03 
   2.00000E-03  8.706E+02  8.672E+02 
   3.00000E-03  2.922E+02  2.896E+02 
   4.00000E-03  1.332E+02  1.311E+02 
   4.49280E-03  9.687E+01  9.490E+01 
K  4.49280E-03  8.148E+02  6.911E+02 
   5.00000E-03  6.305E+02  5.436E+02 
   6.00000E-03  3.933E+02  3.474E+02 
   8.00000E-03  1.828E+02  1.661E+02 
   1.00000E-02  9.952E+01  9.175E+01 
   1.50000E-02  3.202E+01  2.988E+01 
   2.00000E-02  1.409E+01  1.311E+01 
   3.00000E-02  4.409E+00  3.975E+00 
   4.00000E-02  1.969E+00  1.677E+00 
   5.00000E-02  1.087E+00  8.552E-01 
   6.00000E-02  6.932E-01  4.944E-01 
   8.00000E-02  3.753E-01  2.132E-01 
   1.00000E-01  2.577E-01  1.167E-01 
   1.50000E-01  1.619E-01  4.998E-02 
   2.00000E-01  1.310E-01  3.586E-02 
   3.00000E-01  1.052E-01  2.997E-02 
   4.00000E-01  9.193E-02  2.887E-02 
   5.00000E-01  8.305E-02  2.837E-02 
   6.00000E-01  7.639E-02  2.795E-02 
   8.00000E-01  6.675E-02  2.703E-02 
   1.00000E+00  5.985E-02  2.603E-02 
   1.25000E+00  5.347E-02  2.480E-02 
   1.50000E+00  4.878E-02  2.370E-02 
   2.00000E+00  4.243E-02  2.202E-02 
   3.00000E+00  3.554E-02  2.016E-02 
   4.00000E+00  3.202E-02  1.933E-02 
   5.00000E+00  2.999E-02  1.897E-02 
   6.00000E+00  2.878E-02  1.887E-02 
   8.00000E+00  2.756E-02  1.900E-02 
   1.00000E+01  2.715E-02  1.929E-02 
   1.50000E+01  2.732E-02  2.000E-02 
   2.00000E+01  2.804E-02  2.052E-02 
".

(** ries/nonresonant/nist_xrmac/22.txt, verbatim. *)
Definition xrmac_22 : string := "   1.00000E-03  5.869E+03  5.860E+03 
   1.50000E-03  2.096E+03  2.091E+03 
   2.00000E-03  9.860E+02  9.824E+02 
   3.00000E-03  3.323E+02  3.295E+02 
   4.00000E-03  1.517E+02  1.494E+02 
   4.96640E-03  8.380E+01  8.188E+01 
K  4.96640E-03  6.878E+02  5.684E+02 
   5.00000E-03  6.838E+02  5.657E+02 
   6.00000E-03  4.323E+02  3.691E+02 
   8.00000E-03  2.023E+02  1.793E+02 
   1.00000E-02  1.107E+02  1.001E+02 
   1.50000E-02  3.587E+01  3.311E+01 
   2.00000E-02  1.585E+01  1.465E+01 
   3.00000E-02  4.972E+00  4.488E+00 
   4.00000E-02  2.214E+00  1.904E+00 
   5.00000E-02  1.213E+00  9.737E-01 
   6.00000E-02  7.661E-01  5.634E-01 
   8.00000E-02  4.052E-01  2.422E-01 
   1.00000E-01  2.721E-01  1.312E-01 
   1.50000E-01  1.649E-01  5.393E-02 
   2.00000E-01  1.314E-01  3.726E-02 
   3.00000E-01  1.043E-01  3.007E-02 
   4.00000E-01  9.081E-02  2.864E-02 
   5.00000E-01  8.191E-02  2.804E-02 
   6.00000E-01  7.529E-02  2.756E-02 
   8.00000E-01  6.572E-02  2.661E-02 
   1.00000E+00  5.891E-02  2.561E-02 
   1.25000E+00  5.263E-02  2.439E-02 
   1.50000E+00  4.801E-02  2.330E-02 
   2.00000E+00  4.180E-02  2.166E-02 
   3.00000E+00  3.512E-02  1.989E-02 
   4.00000E+00  3.173E-02  1.913E-02 
   5.00000E+00  2.982E-02  1.884E-02 
   6.00000E+00  2.868E-02  1.879E-02 
   8.00000E+00  2.759E-02  1.899E-02 
   1.00000E+01  2.727E-02  1.933E-02 
   1.50000E+01  2.762E-02  2.013E-02 
   2.00000E+01  2.844E-02  2.067E-02 
".

(** ries/nonresonant/nist_xrmac/23.txt, verbatim. *)
Definition xrmac_23 : string := "   1.00000E-03  6.495E+03  6.483E+03 
   1.50000E-03  2.342E+03  2.336E+03 
   2.00000E-03  1.106E+03  1.102E+03 
   3.00000E-03  3.743E+02  3.713E+02 
   4.00000E-03  1.712E+02  1.688E+02 
   5.00000E-03  9.291E+01  9.089E+01 
   5.46510E-03  7.277E+01  7.090E+01 
K  5.46510E-03  5.870E+02  4.717E+02 
   6.00000E-03  4.687E+02  3.841E+02 
   8.00000E-03  2.217E+02  1.908E+02 
   1.00000E-02  1.218E+02  1.077E+02 
   1.50000E-02  3.983E+01  3.627E+01 
   2.00000E-02  1.768E+01  1.620E+01 
   3.00000E-02  5.564E+00  5.015E+00 
   4.00000E-02  2.472E+00  2.140E+00 
   5.00000E-02  1.347E+00  1.098E+00 
   6.00000E-02  8.438E-01  6.364E-01 
   8.00000E-02  4.371E-01  2.731E-01 
   1.00000E-01  2.877E-01  1.469E-01 
   1.50000E-01  1.682E-01  5.821E-02 
   2.00000E-01  1.318E-01  3.879E-02 
   3.00000E-01  1.034E-01  3.019E-02 
   4.00000E-01  8.965E-02  2.843E-02 
   5.00000E-01  8.074E-02  2.770E-02 
   6.00000E-01  7.414E-02  2.717E-02 
   8.00000E-01  6.466E-02  2.618E-02 
   1.00000E+00  5.794E-02  2.518E-02 
   1.25000E+00  5.175E-02  2.396E-02 
   1.50000E+00  4.722E-02  2.289E-02 
   2.00000E+00  4.115E-02  2.130E-02 
   3.00000E+00  3.466E-02  1.961E-02 
   4.00000E+00  3.141E-02  1.892E-02 
   5.00000E+00  2.960E-02  1.869E-02 
   6.00000E+00  2.855E-02  1.869E-02 
   8.00000E+00  2.759E-02  1.896E-02 
   1.00000E+01  2.738E-02  1.937E-02 
   1.50000E+01  2.786E-02  2.022E-02 
   2.00000E+01  2.877E-02  2.079E-02 
".

(** ries/nonresonant/nist_xrmac/24.txt, verbatim. *)
Definition xrmac_24 : string := "   1.00000E-03  7.405E+03  7.388E+03 
   1.50000E-03  2.694E+03  2.687E+03 
   2.00000E-03  1.277E+03  1.272E+03 
   3.00000E-03  4.339E+02  4.305E+02 
   4.00000E-03  1.988E+02  1.961E+02 
   5.00000E-03  1.080E+02  1.057E+02 
   5.98920E-03  6.574E+01  6.383E+01 
K  5.98920E-03  5.977E+02  4.027E+02 
   6.00000E-03  5.160E+02  4.027E+02 
   8.00000E-03  2.513E+02  2.087E+02 
   1.00000E-02  1.386E+02  1.193E+02 
   1.50000E-02  4.571E+01  4.093E+01 
   2.00000E-02  2.038E+01  1.846E+01 
   3.00000E-02  6.434E+00  5.780E+00 
   4.00000E-02  2.856E+00  2.482E+00 
   5.00000E-02  1.550E+00  1.278E+00 
   6.00000E-02  9.639E-01  7.420E-01 
   8.00000E-02  4.905E-01  3.182E-01 
   1.00000E-01  3.166E-01  1.701E-01 
   1.50000E-01  1.788E-01  6.536E-02 
   2.00000E-01  1.378E-01  4.211E-02 
   3.00000E-01  1.067E-01  3.160E-02 
   4.00000E-01  9.213E-02  2.938E-02 
   5.00000E-01  8.281E-02  2.849E-02 
   6.00000E-01  7.598E-02  2.788E-02 
   8.00000E-01  6.620E-02  2.680E-02 
   1.00000E+00  5.930E-02  2.576E-02 
   1.25000E+00  5.295E-02  2.450E-02 
   1.50000E+00  4.832E-02  2.340E-02 
   2.00000E+00  4.213E-02  2.178E-02 
   3.00000E+00  3.559E-02  2.011E-02 
   4.00000E+00  3.235E-02  1.947E-02 
   5.00000E+00  3.057E-02  1.929E-02 
   6.00000E+00  2.956E-02  1.933E-02 
   8.00000E+00  2.869E-02  1.970E-02 
   1.00000E+01  2.855E-02  2.016E-02 
   1.50000E+01  2.920E-02  2.112E-02 
   2.00000E+01  3.026E-02  2.174E-02 
".

(** ries/nonresonant/nist_xrmac/25.txt, verbatim. *)
Definition xrmac_25 : string := "   1.00000E-03  8.093E+03  8.069E+03 
   1.50000E-03  2.984E+03  2.975E+03 
   2.00000E-03  1.421E+03  1.415E+03 
   3.00000E-03  4.851E+02  4.815E+02 
   4.00000E-03  2.229E+02  2.201E+02 
   5.00000E-03  1.212E+02  1.188E+02 
   6.00000E-03  7.350E+01  7.150E+01 
   6.53900E-03  5.803E+01  5.619E+01 
K  6.53900E-03  4.520E+02  3.415E+02 
   8.00000E-03  2.734E+02  2.177E+02 
   1.00000E-02  1.514E+02  1.262E+02 
   1.50000E-02  5.027E+01  4.414E+01 
   2.00000E-02  2.253E+01  2.015E+01 
   3.00000E-02  7.141E+00  6.382E+00 
   4.00000E-02  3.169E+00  2.757E+00 
   5.00000E-02  1.714E+00  1.425E+00 
   6.00000E-02  1.060E+00  8.294E-01 
   8.00000E-02  5.306E-01  3.558E-01 
   1.00000E-01  3.367E-01  1.894E-01 
   1.50000E-01  1.838E-01  7.085E-02 
   2.00000E-01  1.391E-01  4.421E-02 
   3.00000E-01  1.062E-01  3.196E-02 
   4.00000E-01  9.133E-02  2.932E-02 
   5.00000E-01  8.192E-02  2.827E-02 
   6.00000E-01  7.509E-02  2.760E-02 
   8.00000E-01  6.537E-02  2.647E-02 
   1.00000E+00  5.852E-02  2.541E-02 
   1.25000E+00  5.224E-02  2.416E-02 
   1.50000E+00  4.769E-02  2.307E-02 
   2.00000E+00  4.162E-02  2.149E-02 
   3.00000E+00  3.524E-02  1.989E-02 
   4.00000E+00  3.213E-02  1.933E-02 
   5.00000E+00  3.045E-02  1.920E-02 
   6.00000E+00  2.952E-02  1.930E-02 
   8.00000E+00  2.875E-02  1.973E-02 
   1.00000E+01  2.871E-02  2.025E-02 
   1.50000E+01  2.951E-02  2.127E-02 
   2.00000E+01  3.068E-02  2.193E-02 
".

(** ries/nonresonant/nist_xrmac/26.txt, verbatim. *)
Definition xrmac_26 : string := "   1.00000E-03  9.085E+03  9.052E+03 
   1.50000E-03  3.399E+03  3.388E+03 
   2.00000E-03  1.626E+03  1.620E+03 
   3.00000E-03  5.576E+02  5.535E+02 
   4.00000E-03  2.567E+02  2.536E+02 
   5.00000E-03  1.398E+02  1.372E+02 
   6.00000E-03  8.484E+01  8.265E+01 
   7.11200E-03  5.319E+01  5.133E+01 
K  7.11200E-03  4.076E+02  2.978E+02 
   8.00000E-03  3.056E+02  2.316E+02 
   1.00000E-02  1.706E+02  1.369E+02 
   1.50000E-02  5.708E+01  4.896E+01 
   2.00000E-02  2.568E+01  2.260E+01 
   3.00000E-02  8.176E+00  7.251E+00 
   4.00000E-02  3.629E+00  3.155E+00 
   5.00000E-02  1.958E+00  1.638E+00 
   6.00000E-02  1.205E+00  9.555E-01 
   8.00000E-02  5.952E-01  4.104E-01 
   1.00000E-01  3.717E-01  2.177E-01 
   1.50000E-01  1.964E-01  7.961E-02 
   2.00000E-01  1.460E-01  4.825E-02 
   3.00000E-01  1.099E-01  3.361E-02 
   4.00000E-01  9.400E-02  3.039E-02 
   5.00000E-01  8.414E-02  2.914E-02 
   6.00000E-01  7.704E-02  2.836E-02 
   8.00000E-01  6.699E-02  2.714E-02 
   1.00000E+00  5.995E-02  2.603E-02 
   1.25000E+00  5.350E-02  2.472E-02 
   1.50000E+00  4.883E-02  2.360E-02 
   2.00000E+00  4.265E-02  2.199E-02 
   3.00000E+00  3.621E-02  2.042E-02 
   4.00000E+00  3.312E-02  1.990E-02 
   5.00000E+00  3.146E-02  1.983E-02 
   6.00000E+00  3.057E-02  1.997E-02 
   8.00000E+00  2.991E-02  2.050E-02 
   1.00000E+01  2.994E-02  2.108E-02 
   1.50000E+01  3.092E-02  2.221E-02 
   2.00000E+01  3.224E-02  2.292E-02 
".

(** ries/nonresonant/nist_xrmac/27.txt, verbatim. *)
Definition xrmac_27 : string := "   1.00000E-03  9.796E+03  9.750E+03 
   1.50000E-03  3.697E+03  3.682E+03 
   2.00000E-03  1.779E+03  1.771E+03 
   3.00000E-03  6.129E+02  6.084E+02 
   4.00000E-03  2.830E+02  2.796E+02 
   5.00000E-03  1.543E+02  1.515E+02 
   6.00000E-03  9.370E+01  9.138E+01 
   7.70890E-03  4.710E+01  4.530E+01 
K  7.70890E-03  3.555E+02  2.507E+02 
   8.00000E-03  3.248E+02  2.322E+02 
   1.00000E-02  1.841E+02  1.413E+02 
   1.50000E-02  6.201E+01  5.178E+01 
   2.00000E-02  2.803E+01  2.421E+01 
   3.00000E-02  8.962E+00  7.873E+00 
   4.00000E-02  3.981E+00  3.450E+00 
   5.00000E-02  2.144E+00  1.799E+00 
   6.00000E-02  1.314E+00  1.052E+00 
   8.00000E-02  6.414E-01  4.528E-01 
   1.00000E-01  3.949E-01  2.397E-01 
   1.50000E-01  2.023E-01  8.597E-02 
   2.00000E-01  1.476E-01  5.071E-02 
   3.00000E-01  1.094E-01  3.406E-02 
   4.00000E-01  9.311E-02  3.034E-02 
   5.00000E-01  8.315E-02  2.890E-02 
   6.00000E-01  7.604E-02  2.805E-02 
   8.00000E-01  6.604E-02  2.677E-02 
   1.00000E+00  5.906E-02  2.564E-02 
   1.25000E+00  5.270E-02  2.434E-02 
   1.50000E+00  4.810E-02  2.323E-02 
   2.00000E+00  4.204E-02  2.165E-02 
   3.00000E+00  3.580E-02  2.016E-02 
   4.00000E+00  3.283E-02  1.971E-02 
   5.00000E+00  3.127E-02  1.969E-02 
   6.00000E+00  3.045E-02  1.988E-02 
   8.00000E+00  2.991E-02  2.048E-02 
   1.00000E+01  3.002E-02  2.110E-02 
   1.50000E+01  3.115E-02  2.230E-02 
   2.00000E+01  3.256E-02  2.303E-02 
".

(** ries/nonresonant/nist_xrmac/28.txt, verbatim. *)
Definition xrmac_28 : string := "   1.00000E-03  9.855E+03  9.797E+03 
   1.00404E-03  9.753E+03  9.697E+03 
   1.00810E-03  9.654E+03  9.598E+03 
L1 1.00810E-03  1.099E+04  1.093E+04 
   1.50000E-03  4.234E+03  4.214E+03 
   2.00000E-03  2.049E+03  2.039E+03 
   3.00000E-03  7.094E+02  7.042E+02 
   4.00000E-03  3.282E+02  3.244E+02 
   5.00000E-03  1.793E+02  1.761E+02 
   6.00000E-03  1.090E+02  1.064E+02 
   8.00000E-03  4.952E+01  4.758E+01 
   8.33280E-03  4.428E+01  4.242E+01 
K  8.33280E-03  3.294E+02  2.240E+02 
   1.00000E-02  2.090E+02  1.524E+02 
   1.50000E-02  7.081E+01  5.734E+01 
   2.00000E-02  3.220E+01  2.722E+01 
   3.00000E-02  1.034E+01  8.982E+00 
   4.00000E-02  4.600E+00  3.967E+00 
   5.00000E-02  2.474E+00  2.078E+00 
   6.00000E-02  1.512E+00  1.219E+00 
   8.00000E-02  7.306E-01  5.259E-01 
   1.00000E-01  4.440E-01  2.781E-01 
   1.50000E-01  2.208E-01  9.812E-02 
   2.00000E-01  1.582E-01  5.649E-02 
   3.00000E-01  1.154E-01  3.659E-02 
   4.00000E-01  9.765E-02  3.209E-02 
   5.00000E-01  8.698E-02  3.036E-02 
   6.00000E-01  7.944E-02  2.937E-02 
   8.00000E-01  6.891E-02  2.795E-02 
   1.00000E+00  6.160E-02  2.674E-02 
   1.25000E+00  5.494E-02  2.536E-02 
   1.50000E+00  5.015E-02  2.420E-02 
   2.00000E+00  4.387E-02  2.257E-02 
   3.00000E+00  3.745E-02  2.107E-02 
   4.00000E+00  3.444E-02  2.066E-02 
   5.00000E+00  3.289E-02  2.070E-02 
   6.00000E+00  3.210E-02  2.094E-02 
   8.00000E+00  3.164E-02  2.163E-02 
   1.00000E+01  3.185E-02  2.234E-02 
   1.50000E+01  3.320E-02  2.368E-02 
   2.00000E+01  3.476E-02  2.446E-02 
".

(** ries/nonresonant/nist_xrmac/29.txt, verbatim. *)
Definition xrmac_29 : string := "   1.00000E-03  1.057E+04  1.049E+04 
   1.04695E-03  9.307E+03  9.241E+03 
   1.09610E-03  8.242E+03  8.186E+03 
L1 1.09610E-03  9.347E+03  9.282E+03 
   1.50000E-03  4.418E+03  4.393E+03 
   2.00000E-03  2.154E+03  2.142E+03 
   3.00000E-03  7.488E+02  7.430E+02 
   4.00000E-03  3.473E+02  3.432E+02 
   5.00000E-03  1.899E+02  1.866E+02 
   6.00000E-03  1.156E+02  1.128E+02 
   8.00000E-03  5.255E+01  5.054E+01 
   8.97890E-03  3.829E+01  3.652E+01 
K  8.97890E-03  2.784E+02  1.824E+02 
   1.00000E-02  2.159E+02  1.484E+02 
   1.50000E-02  7.405E+01  5.788E+01 
   2.00000E-02  3.379E+01  2.788E+01 
   3.00000E-02  1.092E+01  9.349E+00 
   4.00000E-02  4.862E+00  4.163E+00 
   5.00000E-02  2.613E+00  2.192E+00 
   6.00000E-02  1.593E+00  1.290E+00 
   8.00000E-02  7.630E-01  5.581E-01 
   1.00000E-01  4.584E-01  2.949E-01 
   1.50000E-01  2.217E-01  1.027E-01 
   2.00000E-01  1.559E-01  5.781E-02 
   3.00000E-01  1.119E-01  3.617E-02 
   4.00000E-01  9.413E-02  3.121E-02 
   5.00000E-01  8.362E-02  2.933E-02 
   6.00000E-01  7.625E-02  2.826E-02 
   8.00000E-01  6.605E-02  2.681E-02 
   1.00000E+00  5.901E-02  2.562E-02 
   1.25000E+00  5.261E-02  2.428E-02 
   1.50000E+00  4.803E-02  2.316E-02 
   2.00000E+00  4.205E-02  2.160E-02 
   3.00000E+00  3.599E-02  2.023E-02 
   4.00000E+00  3.318E-02  1.989E-02 
   5.00000E+00  3.177E-02  1.998E-02 
   6.00000E+00  3.108E-02  2.027E-02 
   8.00000E+00  3.074E-02  2.100E-02 
   1.00000E+01  3.103E-02  2.174E-02 
   1.50000E+01  3.247E-02  2.309E-02 
   2.00000E+01  3.408E-02  2.387E-02 
".

(** ries/nonresonant/nist_xrmac/30.txt, verbatim. *)
Definition xrmac_30 : string := "   1.00000E-03  1.553E+03  1.548E+03 
   1.00980E-03  1.518E+03  1.513E+03 
   1.01970E-03  1.484E+03  1.478E+03 
L3 1.01970E-03  3.804E+03  3.777E+03 
   1.03119E-03  5.097E+03  5.057E+03 
   1.04280E-03  6.518E+03  6.464E+03 
L2 1.04280E-03  8.274E+03  8.202E+03 
   1.11565E-03  8.452E+03  8.382E+03 
   1.19360E-03  7.371E+03  7.312E+03 
L1 1.19360E-03  8.396E+03  8.328E+03 
   1.50000E-03  4.825E+03  4.791E+03 
   2.00000E-03  2.375E+03  2.359E+03 
   3.00000E-03  8.311E+02  8.244E+02 
   4.00000E-03  3.865E+02  3.820E+02 
   5.00000E-03  2.118E+02  2.082E+02 
   6.00000E-03  1.290E+02  1.261E+02 
   8.00000E-03  5.875E+01  5.660E+01 
   9.65860E-03  3.505E+01  3.332E+01 
K  9.65860E-03  2.536E+02  1.599E+02 
   1.00000E-02  2.331E+02  1.497E+02 
   1.50000E-02  8.117E+01  6.099E+01 
   2.00000E-02  3.719E+01  2.986E+01 
   3.00000E-02  1.207E+01  1.018E+01 
   4.00000E-02  5.384E+00  4.570E+00 
   5.00000E-02  2.892E+00  2.419E+00 
   6.00000E-02  1.760E+00  1.429E+00 
   8.00000E-02  8.364E-01  6.203E-01 
   1.00000E-01  4.973E-01  3.278E-01 
   1.50000E-01  2.341E-01  1.128E-01 
   2.00000E-01  1.617E-01  6.225E-02 
   3.00000E-01  1.141E-01  3.764E-02 
   4.00000E-01  9.539E-02  3.195E-02 
   5.00000E-01  8.450E-02  2.979E-02 
   6.00000E-01  7.695E-02  2.861E-02 
   8.00000E-01  6.656E-02  2.704E-02 
   1.00000E+00  5.941E-02  2.580E-02 
   1.25000E+00  5.296E-02  2.443E-02 
   1.50000E+00  4.834E-02  2.329E-02 
   2.00000E+00  4.235E-02  2.174E-02 
   3.00000E+00  3.634E-02  2.041E-02 
   4.00000E+00  3.360E-02  2.014E-02 
   5.00000E+00  3.225E-02  2.028E-02 
   6.00000E+00  3.160E-02  2.061E-02 
   8.00000E+00  3.138E-02  2.143E-02 
   1.00000E+01  3.175E-02  2.223E-02 
   1.50000E+01  3.335E-02  2.367E-02 
   2.00000E+01  3.509E-02  2.451E-02 
".

(** ries/nonresonant/nist_xrmac/31.txt, verbatim. *)
Definition xrmac_31 : string := "   1.00000E-03  1.697E+03  1.692E+03 
   1.05613E-03  1.492E+03  1.487E+03 
   1.11540E-03  1.312E+03  1.307E+03 
L3 1.11540E-03  3.990E+03  3.955E+03 
   1.12877E-03  4.887E+03  4.842E+03 
   1.14230E-03  5.664E+03  5.611E+03 
L2 1.14230E-03  7.405E+03  7.332E+03 
   1.21752E-03  7.138E+03  7.070E+03 
   1.29770E-03  6.358E+03  6.299E+03 
L1 1.29770E-03  7.206E+03  7.139E+03 
   1.50000E-03  5.087E+03  5.044E+03 
   2.00000E-03  2.515E+03  2.496E+03 
   3.00000E-03  8.857E+02  8.782E+02 
   4.00000E-03  4.130E+02  4.082E+02 
   5.00000E-03  2.266E+02  2.229E+02 
   6.00000E-03  1.382E+02  1.352E+02 
   8.00000E-03  6.302E+01  6.082E+01 
   1.00000E-02  3.421E+01  3.250E+01 
   1.03671E-02  3.099E+01  2.936E+01 
K  1.03671E-02  2.214E+02  1.344E+02 
   1.50000E-02  8.537E+01  6.135E+01 
   2.00000E-02  3.928E+01  3.059E+01 
   3.00000E-02  1.281E+01  1.061E+01 
   4.00000E-02  5.726E+00  4.810E+00 
   5.00000E-02  3.076E+00  2.560E+00 
   6.00000E-02  1.868E+00  1.518E+00 
   8.00000E-02  8.823E-01  6.613E-01 
   1.00000E-01  5.197E-01  3.497E-01 
   1.50000E-01  2.387E-01  1.193E-01 
   2.00000E-01  1.619E-01  6.463E-02 
   3.00000E-01  1.123E-01  3.782E-02 
   4.00000E-01  9.325E-02  3.156E-02 
   5.00000E-01  8.236E-02  2.920E-02 
   6.00000E-01  7.487E-02  2.793E-02 
   8.00000E-01  6.466E-02  2.631E-02 
   1.00000E+00  5.767E-02  2.506E-02 
   1.25000E+00  5.139E-02  2.371E-02 
   1.50000E+00  4.692E-02  2.260E-02 
   2.00000E+00  4.113E-02  2.110E-02 
   3.00000E+00  3.538E-02  1.986E-02 
   4.00000E+00  3.280E-02  1.966E-02 
   5.00000E+00  3.156E-02  1.985E-02 
   6.00000E+00  3.099E-02  2.021E-02 
   8.00000E+00  3.086E-02  2.108E-02 
   1.00000E+01  3.130E-02  2.191E-02 
   1.50000E+01  3.300E-02  2.339E-02 
   2.00000E+01  3.479E-02  2.425E-02 
".

(** ries/nonresonant/nist_xrmac/32.txt, verbatim. *)
Definition xrmac_32 : string := "   1.00000E-03  1.893E+03  1.887E+03 
   1.10304E-03  1.502E+03  1.496E+03 
   1.21670E-03  1.190E+03  1.185E+03 
L3 1.21670E-03  4.389E+03  4.343E+03 
   1.23215E-03  4.734E+03  4.684E+03 
   1.24780E-03  4.974E+03  4.922E+03 
L2 1.24780E-03  6.698E+03  6.622E+03 
   1.32844E-03  6.348E+03  6.279E+03 
   1.41430E-03  5.554E+03  5.495E+03 
L1 1.41430E-03  6.287E+03  6.221E+03 
   1.50000E-03  5.475E+03  5.420E+03 
   2.00000E-03  2.711E+03  2.688E+03 
   3.00000E-03  9.613E+02  9.527E+02 
   4.00000E-03  4.497E+02  4.445E+02 
   5.00000E-03  2.472E+02  2.433E+02 
   6.00000E-03  1.509E+02  1.477E+02 
   8.00000E-03  6.890E+01  6.660E+01 
   1.00000E-02  3.742E+01  3.564E+01 
   1.11031E-02  2.811E+01  2.653E+01 
K  1.11031E-02  1.981E+02  1.157E+02 
   1.50000E-02  9.152E+01  6.256E+01 
   2.00000E-02  4.222E+01  3.178E+01 
   3.00000E-02  1.385E+01  1.126E+01 
   4.00000E-02  6.207E+00  5.152E+00 
   5.00000E-02  3.335E+00  2.759E+00 
   6.00000E-02  2.023E+00  1.642E+00 
   8.00000E-02  9.501E-01  7.184E-01 
   1.00000E-01  5.550E-01  3.803E-01 
   1.50000E-01  2.491E-01  1.288E-01 
   2.00000E-01  1.661E-01  6.865E-02 
   3.00000E-01  1.131E-01  3.891E-02 
   4.00000E-01  9.327E-02  3.193E-02 
   5.00000E-01  8.212E-02  2.930E-02 
   6.00000E-01  7.452E-02  2.790E-02 
   8.00000E-01  6.426E-02  2.618E-02 
   1.00000E+00  5.727E-02  2.489E-02 
   1.25000E+00  5.101E-02  2.353E-02 
   1.50000E+00  4.657E-02  2.242E-02 
   2.00000E+00  4.086E-02  2.094E-02 
   3.00000E+00  3.524E-02  1.977E-02 
   4.00000E+00  3.275E-02  1.962E-02 
   5.00000E+00  3.158E-02  1.987E-02 
   6.00000E+00  3.107E-02  2.027E-02 
   8.00000E+00  3.103E-02  2.120E-02 
   1.00000E+01  3.156E-02  2.208E-02 
   1.50000E+01  3.340E-02  2.364E-02 
   2.00000E+01  3.528E-02  2.452E-02 
".

(** ries/nonresonant/nist_xrmac/33.txt, verbatim. *)
Definition xrmac_33 : string := "   1.00000E-03  2.121E+03  2.116E+03 
   1.15026E-03  1.523E+03  1.517E+03 
   1.32310E-03  1.092E+03  1.087E+03 
L3 1.32310E-03  4.513E+03  4.459E+03 
   1.34073E-03  4.469E+03  4.416E+03 
   1.35860E-03  4.452E+03  4.398E+03 
L2 1.35860E-03  6.093E+03  6.015E+03 
   1.50000E-03  5.227E+03  5.164E+03 
   1.52650E-03  4.997E+03  4.938E+03 
L1 1.52650E-03  5.653E+03  5.585E+03 
   2.00000E-03  2.931E+03  2.902E+03 
   3.00000E-03  1.049E+03  1.039E+03 
   4.00000E-03  4.920E+02  4.862E+02 
   5.00000E-03  2.709E+02  2.667E+02 
   6.00000E-03  1.656E+02  1.622E+02 
   8.00000E-03  7.573E+01  7.330E+01 
   1.00000E-02  4.115E+01  3.928E+01 
   1.18667E-02  2.577E+01  2.425E+01 
K  1.18667E-02  1.792E+02  1.008E+02 
   1.50000E-02  9.856E+01  6.371E+01 
   2.00000E-02  4.564E+01  3.310E+01 
   3.00000E-02  1.506E+01  1.198E+01 
   4.00000E-02  6.760E+00  5.537E+00 
   5.00000E-02  3.635E+00  2.983E+00 
   6.00000E-02  2.203E+00  1.783E+00 
   8.00000E-02  1.030E+00  7.837E-01 
   1.00000E-01  5.971E-01  4.155E-01 
   1.50000E-01  2.622E-01  1.399E-01 
   2.00000E-01  1.719E-01  7.350E-02 
   3.00000E-01  1.150E-01  4.043E-02 
   4.00000E-01  9.414E-02  3.261E-02 
   5.00000E-01  8.259E-02  2.966E-02 
   6.00000E-01  7.483E-02  2.813E-02 
   8.00000E-01  6.440E-02  2.628E-02 
   1.00000E+00  5.735E-02  2.494E-02 
   1.25000E+00  5.106E-02  2.355E-02 
   1.50000E+00  4.661E-02  2.243E-02 
   2.00000E+00  4.093E-02  2.096E-02 
   3.00000E+00  3.539E-02  1.984E-02 
   4.00000E+00  3.296E-02  1.974E-02 
   5.00000E+00  3.187E-02  2.005E-02 
   6.00000E+00  3.141E-02  2.049E-02 
   8.00000E+00  3.146E-02  2.148E-02 
   1.00000E+01  3.207E-02  2.241E-02 
   1.50000E+01  3.405E-02  2.404E-02 
   2.00000E+01  3.603E-02  2.495E-02 
".

(** ries/nonresonant/nist_xrmac/34.txt, verbatim. *)
Definition xrmac_34 : string := "   1.00000E-03  2.317E+03  2.312E+03 
   1.19825E-03  1.512E+03  1.506E+03 
   1.43580E-03  9.814E+02  9.760E+02 
L3 1.43580E-03  4.347E+03  4.287E+03 
   1.45586E-03  4.057E+03  4.002E+03 
   1.47620E-03  3.907E+03  3.855E+03 
L2 1.47620E-03  5.186E+03  5.112E+03 
   1.50000E-03  5.336E+03  5.260E+03 
   1.65390E-03  4.342E+03  4.284E+03 
L1 1.65390E-03  4.915E+03  4.849E+03 
   2.00000E-03  3.098E+03  3.062E+03 
   3.00000E-03  1.116E+03  1.104E+03 
   4.00000E-03  5.252E+02  5.187E+02 
   5.00000E-03  2.896E+02  2.851E+02 
   6.00000E-03  1.773E+02  1.737E+02 
   8.00000E-03  8.116E+01  7.865E+01 
   1.00000E-02  4.414E+01  4.221E+01 
   1.26578E-02  2.318E+01  2.173E+01 
K  1.26578E-02  1.589E+02  8.599E+01 
   1.50000E-02  1.033E+02  6.270E+01 
   2.00000E-02  4.818E+01  3.352E+01 
   3.00000E-02  1.596E+01  1.240E+01 
   4.00000E-02  7.184E+00  5.796E+00 
   5.00000E-02  3.864E+00  3.143E+00 
   6.00000E-02  2.341E+00  1.886E+00 
   8.00000E-02  1.090E+00  8.332E-01 
   1.00000E-01  6.278E-01  4.426E-01 
   1.50000E-01  2.703E-01  1.483E-01 
   2.00000E-01  1.742E-01  7.695E-02 
   3.00000E-01  1.144E-01  4.113E-02 
   4.00000E-01  9.299E-02  3.261E-02 
   5.00000E-01  8.129E-02  2.941E-02 
   6.00000E-01  7.350E-02  2.775E-02 
   8.00000E-01  6.314E-02  2.581E-02 
   1.00000E+00  5.619E-02  2.446E-02 
   1.25000E+00  4.999E-02  2.306E-02 
   1.50000E+00  4.564E-02  2.195E-02 
   2.00000E+00  4.010E-02  2.052E-02 
   3.00000E+00  3.476E-02  1.947E-02 
   4.00000E+00  3.247E-02  1.944E-02 
   5.00000E+00  3.145E-02  1.978E-02 
   6.00000E+00  3.105E-02  2.025E-02 
   8.00000E+00  3.119E-02  2.130E-02 
   1.00000E+01  3.186E-02  2.226E-02 
   1.50000E+01  3.395E-02  2.394E-02 
   2.00000E+01  3.599E-02  2.487E-02 
".

(** ries/nonresonant/nist_xrmac/35.txt, verbatim. *)
Definition xrmac_35 : string := "   1.00000E-03  2.624E+03  2.618E+03 
   1.50000E-03  1.002E+03  9.964E+02 
   1.54990E-03  9.255E+02  9.200E+02 
L3 1.54990E-03  4.289E+03  4.223E+03 
   1.57278E-03  3.838E+03  3.780E+03 
   1.59600E-03  3.587E+03  3.534E+03 
L2 1.59600E-03  5.097E+03  5.014E+03 
   1.68644E-03  4.595E+03  4.523E+03 
   1.78200E-03  3.969E+03  3.910E+03 
L1 1.78200E-03  4.495E+03  4.427E+03 
   2.00000E-03  3.407E+03  3.360E+03 
   3.00000E-03  1.231E+03  1.216E+03 
   4.00000E-03  5.815E+02  5.740E+02 
   5.00000E-03  3.213E+02  3.163E+02 
   6.00000E-03  1.968E+02  1.930E+02 
   8.00000E-03  9.026E+01  8.756E+01 
   1.00000E-02  4.912E+01  4.706E+01 
   1.34737E-02  2.176E+01  2.033E+01 
K  1.34737E-02  1.471E+02  7.668E+01 
   1.50000E-02  1.119E+02  6.336E+01 
   2.00000E-02  5.266E+01  3.502E+01 
   3.00000E-02  1.753E+01  1.328E+01 
   4.00000E-02  7.900E+00  6.267E+00 
   5.00000E-02  4.264E+00  3.431E+00 
   6.00000E-02  2.582E+00  2.068E+00 
   8.00000E-02  1.198E+00  9.185E-01 
   1.00000E-01  6.861E-01  4.890E-01 
   1.50000E-01  2.899E-01  1.634E-01 
   2.00000E-01  1.838E-01  8.378E-02 
   3.00000E-01  1.186E-01  4.360E-02 
   4.00000E-01  9.563E-02  3.398E-02 
   5.00000E-01  8.328E-02  3.036E-02 
   6.00000E-01  7.515E-02  2.851E-02 
   8.00000E-01  6.443E-02  2.640E-02 
   1.00000E+00  5.728E-02  2.496E-02 
   1.25000E+00  5.094E-02  2.350E-02 
   1.50000E+00  4.650E-02  2.237E-02 
   2.00000E+00  4.089E-02  2.092E-02 
   3.00000E+00  3.552E-02  1.991E-02 
   4.00000E+00  3.327E-02  1.995E-02 
   5.00000E+00  3.229E-02  2.036E-02 
   6.00000E+00  3.194E-02  2.090E-02 
   8.00000E+00  3.218E-02  2.207E-02 
   1.00000E+01  3.293E-02  2.314E-02 
   1.50000E+01  3.521E-02  2.507E-02 
   2.00000E+01  3.738E-02  2.618E-02 
".

(** ries/nonresonant/nist_xrmac/36.txt, verbatim. *)
Definition xrmac_36 : string := "   1.00000E-03  2.854E+03  2.848E+03 
   1.50000E-03  1.093E+03  1.087E+03 
   1.67490E-03  8.361E+02  8.305E+02 
L3 1.67490E-03  3.909E+03  3.842E+03 
   1.70085E-03  3.409E+03  3.352E+03 
   1.72720E-03  3.166E+03  3.114E+03 
L2 1.72720E-03  4.566E+03  4.484E+03 
   1.82152E-03  4.014E+03  3.945E+03 
   1.92100E-03  3.482E+03  3.425E+03 
L1 1.92100E-03  3.948E+03  3.882E+03 
   2.00000E-03  3.599E+03  3.541E+03 
   3.00000E-03  1.305E+03  1.288E+03 
   4.00000E-03  6.186E+02  6.101E+02 
   5.00000E-03  3.425E+02  3.371E+02 
   6.00000E-03  2.101E+02  2.060E+02 
   8.00000E-03  9.651E+01  9.371E+01 
   1.00000E-02  5.257E+01  5.044E+01 
   1.43256E-02  1.971E+01  1.836E+01 
K  1.43256E-02  1.313E+02  6.604E+01 
   1.50000E-02  1.168E+02  6.112E+01 
   2.00000E-02  5.548E+01  3.509E+01 
   3.00000E-02  1.854E+01  1.365E+01 
   4.00000E-02  8.389E+00  6.538E+00 
   5.00000E-02  4.523E+00  3.596E+00 
   6.00000E-02  2.739E+00  2.178E+00 
   8.00000E-02  1.267E+00  9.729E-01 
   1.00000E-01  7.221E-01  5.192E-01 
   1.50000E-01  2.998E-01  1.731E-01 
   2.00000E-01  1.872E-01  8.787E-02 
   3.00000E-01  1.186E-01  4.459E-02 
   4.00000E-01  9.480E-02  3.414E-02 
   5.00000E-01  8.226E-02  3.023E-02 
   6.00000E-01  7.410E-02  2.825E-02 
   8.00000E-01  6.340E-02  2.603E-02 
   1.00000E+00  5.631E-02  2.456E-02 
   1.25000E+00  5.005E-02  2.310E-02 
   1.50000E+00  4.569E-02  2.197E-02 
   2.00000E+00  4.020E-02  2.055E-02 
   3.00000E+00  3.501E-02  1.961E-02 
   4.00000E+00  3.286E-02  1.969E-02 
   5.00000E+00  3.196E-02  2.014E-02 
   6.00000E+00  3.168E-02  2.071E-02 
   8.00000E+00  3.199E-02  2.192E-02 
   1.00000E+01  3.280E-02  2.302E-02 
   1.50000E+01  3.518E-02  2.497E-02 
   2.00000E+01  3.741E-02  2.610E-02 
".

(** ries/nonresonant/nist_xrmac/37.txt, verbatim. *)
Definition xrmac_37 : string := "   1.00000E-03  3.174E+03  3.168E+03 
   1.50000E-03  1.219E+03  1.213E+03 
   1.80440E-03  7.782E+02  7.726E+02 
L3 1.80440E-03  3.096E+03  3.040E+03 
   1.83391E-03  2.969E+03  2.915E+03 
   1.86390E-03  2.861E+03  2.810E+03 
L2 1.86390E-03  3.957E+03  3.880E+03 
   2.00000E-03  3.410E+03  3.347E+03 
   2.06510E-03  3.153E+03  3.096E+03 
L1 2.06510E-03  3.606E+03  3.540E+03 
   3.00000E-03  1.418E+03  1.397E+03 
   4.00000E-03  6.748E+02  6.648E+02 
   5.00000E-03  3.744E+02  3.682E+02 
   6.00000E-03  2.300E+02  2.255E+02 
   8.00000E-03  1.058E+02  1.028E+02 
   1.00000E-02  5.766E+01  5.541E+01 
   1.50000E-02  1.909E+01  1.775E+01 
   1.51997E-02  1.842E+01  1.709E+01 
K  1.51997E-02  1.208E+02  5.864E+01 
   2.00000E-02  5.980E+01  3.581E+01 
   3.00000E-02  2.009E+01  1.436E+01 
   4.00000E-02  9.112E+00  6.963E+00 
   5.00000E-02  4.918E+00  3.858E+00 
   6.00000E-02  2.979E+00  2.349E+00 
   8.00000E-02  1.375E+00  1.056E+00 
   1.00000E-01  7.799E-01  5.649E-01 
   1.50000E-01  3.187E-01  1.881E-01 
   2.00000E-01  1.960E-01  9.465E-02 
   3.00000E-01  1.219E-01  4.690E-02 
   4.00000E-01  9.670E-02  3.531E-02 
   5.00000E-01  8.360E-02  3.098E-02 
   6.00000E-01  7.510E-02  2.878E-02 
   8.00000E-01  6.412E-02  2.638E-02 
   1.00000E+00  5.689E-02  2.484E-02 
   1.25000E+00  5.053E-02  2.332E-02 
   1.50000E+00  4.613E-02  2.217E-02 
   2.00000E+00  4.061E-02  2.074E-02 
   3.00000E+00  3.545E-02  1.983E-02 
   4.00000E+00  3.335E-02  1.996E-02 
   5.00000E+00  3.250E-02  2.045E-02 
   6.00000E+00  3.227E-02  2.105E-02 
   8.00000E+00  3.267E-02  2.231E-02 
   1.00000E+01  3.357E-02  2.343E-02 
   1.50000E+01  3.610E-02  2.538E-02 
   2.00000E+01  3.845E-02  2.645E-02 
".

(** ries/nonresonant/nist_xrmac/38.txt, verbatim. *)
Definition xrmac_38 : string := "   1.00000E-03  3.494E+03  3.487E+03 
   1.50000E-03  1.347E+03  1.341E+03 
   1.93960E-03  7.207E+02  7.152E+02 
L3 1.93960E-03  2.864E+03  2.807E+03 
   2.00000E-03  2.589E+03  2.539E+03 
   2.00680E-03  2.571E+03  2.521E+03 
L2 2.00680E-03  3.577E+03  3.501E+03 
   2.10895E-03  3.201E+03  3.134E+03 
   2.21630E-03  2.842E+03  2.786E+03 
L1 2.21630E-03  3.241E+03  3.176E+03 
   3.00000E-03  1.525E+03  1.500E+03 
   4.00000E-03  7.297E+02  7.181E+02 
   5.00000E-03  4.058E+02  3.988E+02 
   6.00000E-03  2.496E+02  2.446E+02 
   8.00000E-03  1.150E+02  1.118E+02 
   1.00000E-02  6.274E+01  6.037E+01 
   1.50000E-02  2.079E+01  1.938E+01 
   1.61046E-02  1.714E+01  1.585E+01 
K  1.61046E-02  1.108E+02  5.200E+01 
   2.00000E-02  6.386E+01  3.602E+01 
   3.00000E-02  2.157E+01  1.493E+01 
   4.00000E-02  9.818E+00  7.346E+00 
   5.00000E-02  5.306E+00  4.103E+00 
   6.00000E-02  3.214E+00  2.511E+00 
   8.00000E-02  1.481E+00  1.135E+00 
   1.00000E-01  8.365E-01  6.093E-01 
   1.50000E-01  3.369E-01  2.028E-01 
   2.00000E-01  2.042E-01  1.013E-01 
   3.00000E-01  1.247E-01  4.906E-02 
   4.00000E-01  9.811E-02  3.634E-02 
   5.00000E-01  8.443E-02  3.156E-02 
   6.00000E-01  7.570E-02  2.917E-02 
   8.00000E-01  6.447E-02  2.660E-02 
   1.00000E+00  5.714E-02  2.498E-02 
   1.25000E+00  5.072E-02  2.342E-02 
   1.50000E+00  4.630E-02  2.225E-02 
   2.00000E+00  4.079E-02  2.082E-02 
   3.00000E+00  3.569E-02  1.995E-02 
   4.00000E+00  3.365E-02  2.013E-02 
   5.00000E+00  3.286E-02  2.066E-02 
   6.00000E+00  3.268E-02  2.130E-02 
   8.00000E+00  3.317E-02  2.260E-02 
   1.00000E+01  3.414E-02  2.377E-02 
   1.50000E+01  3.683E-02  2.578E-02 
   2.00000E+01  3.927E-02  2.684E-02 
".

(** ries/nonresonant/nist_xrmac/39.txt, verbatim. *)
Definition xrmac_39 : string := "   1.00000E-03  3.864E+03  3.857E+03 
   1.50000E-03  1.493E+03  1.487E+03 
   2.00000E-03  7.422E+02  7.365E+02 
   2.08000E-03  6.738E+02  6.682E+02 
L3 2.08000E-03  2.627E+03  2.569E+03 
   2.11741E-03  2.466E+03  2.412E+03 
   2.15550E-03  2.342E+03  2.292E+03 
L2 2.15550E-03  3.264E+03  3.187E+03 
   2.26140E-03  2.916E+03  2.849E+03 
   2.37250E-03  2.597E+03  2.540E+03 
L1 2.37250E-03  2.962E+03  2.897E+03 
   3.00000E-03  1.654E+03  1.623E+03 
   4.00000E-03  7.936E+02  7.798E+02 
   5.00000E-03  4.424E+02  4.344E+02 
   6.00000E-03  2.725E+02  2.670E+02 
   8.00000E-03  1.258E+02  1.224E+02 
   1.00000E-02  6.871E+01  6.619E+01 
   1.50000E-02  2.279E+01  2.130E+01 
   1.70384E-02  1.612E+01  1.486E+01 
K  1.70384E-02  1.029E+02  4.672E+01 
   2.00000E-02  6.855E+01  3.620E+01 
   3.00000E-02  2.330E+01  1.558E+01 
   4.00000E-02  1.065E+01  7.790E+00 
   5.00000E-02  5.764E+00  4.388E+00 
   6.00000E-02  3.493E+00  2.699E+00 
   8.00000E-02  1.607E+00  1.228E+00 
   1.00000E-01  9.047E-01  6.616E-01 
   1.50000E-01  3.595E-01  2.203E-01 
   2.00000E-01  2.149E-01  1.093E-01 
   3.00000E-01  1.289E-01  5.186E-02 
   4.00000E-01  1.006E-01  3.779E-02 
   5.00000E-01  8.613E-02  3.249E-02 
   6.00000E-01  7.703E-02  2.986E-02 
   8.00000E-01  6.546E-02  2.708E-02 
   1.00000E+00  5.795E-02  2.537E-02 
   1.25000E+00  5.141E-02  2.375E-02 
   1.50000E+00  4.692E-02  2.254E-02 
   2.00000E+00  4.137E-02  2.109E-02 
   3.00000E+00  3.628E-02  2.026E-02 
   4.00000E+00  3.428E-02  2.048E-02 
   5.00000E+00  3.355E-02  2.107E-02 
   6.00000E+00  3.341E-02  2.174E-02 
   8.00000E+00  3.399E-02  2.311E-02 
   1.00000E+01  3.504E-02  2.432E-02 
   1.50000E+01  3.790E-02  2.638E-02 
   2.00000E+01  4.048E-02  2.746E-02 
".

(** ries/nonresonant/nist_xrmac/40.txt, verbatim. *)
Definition xrmac_40 : string := "   1.00000E-03  4.210E+03  4.203E+03 
   1.50000E-03  1.631E+03  1.625E+03 
   2.00000E-03  8.115E+02  8.057E+02 
   2.22230E-03  6.258E+02  6.201E+02 
L3 2.22230E-03  2.392E+03  2.335E+03 
   2.26411E-03  2.239E+03  2.186E+03 
   2.30670E-03  2.120E+03  2.071E+03 
L2 2.30670E-03  2.953E+03  2.878E+03 
   2.41654E-03  2.641E+03  2.575E+03 
   2.53160E-03  2.359E+03  2.303E+03 
L1 2.53160E-03  2.691E+03  2.627E+03 
   3.00000E-03  1.772E+03  1.734E+03 
   4.00000E-03  8.507E+02  8.344E+02 
   5.00000E-03  4.755E+02  4.664E+02 
   6.00000E-03  2.935E+02  2.873E+02 
   8.00000E-03  1.356E+02  1.320E+02 
   1.00000E-02  7.417E+01  7.150E+01 
   1.50000E-02  2.463E+01  2.308E+01 
   1.79976E-02  1.501E+01  1.380E+01 
K  1.79976E-02  9.470E+01  4.164E+01 
   2.00000E-02  7.237E+01  3.555E+01 
   3.00000E-02  2.485E+01  1.600E+01 
   4.00000E-02  1.139E+01  8.129E+00 
   5.00000E-02  6.173E+00  4.621E+00 
   6.00000E-02  3.744E+00  2.859E+00 
   8.00000E-02  1.721E+00  1.310E+00 
   1.00000E-01  9.658E-01  7.080E-01 
   1.50000E-01  3.790E-01  2.361E-01 
   2.00000E-01  2.237E-01  1.164E-01 
   3.00000E-01  1.318E-01  5.420E-02 
   4.00000E-01  1.018E-01  3.885E-02 
   5.00000E-01  8.693E-02  3.311E-02 
   6.00000E-01  7.756E-02  3.025E-02 
   8.00000E-01  6.571E-02  2.726E-02 
   1.00000E+00  5.810E-02  2.547E-02 
   1.25000E+00  5.150E-02  2.380E-02 
   1.50000E+00  4.700E-02  2.257E-02 
   2.00000E+00  4.146E-02  2.112E-02 
   3.00000E+00  3.644E-02  2.033E-02 
   4.00000E+00  3.451E-02  2.061E-02 
   5.00000E+00  3.384E-02  2.123E-02 
   6.00000E+00  3.374E-02  2.193E-02 
   8.00000E+00  3.441E-02  2.335E-02 
   1.00000E+01  3.554E-02  2.460E-02 
   1.50000E+01  3.855E-02  2.670E-02 
   2.00000E+01  4.122E-02  2.778E-02 
".

(** ries/nonresonant/nist_xrmac/41.txt, verbatim. *)
Definition xrmac_41 : string := "   1.00000E-03  4.600E+03  4.592E+03 
   1.50000E-03  1.786E+03  1.780E+03 
   2.00000E-03  8.893E+02  8.832E+02 
   2.37050E-03  5.844E+02  5.786E+02 
L3 2.37050E-03  2.181E+03  2.125E+03 
   2.41714E-03  2.045E+03  1.992E+03 
   2.46470E-03  1.935E+03  1.886E+03 
L2 2.46470E-03  2.694E+03  2.619E+03 
   2.57857E-03  2.412E+03  2.347E+03 
   2.69770E-03  2.161E+03  2.104E+03 
L1 2.69770E-03  2.470E+03  2.405E+03 
   3.00000E-03  1.906E+03  1.859E+03 
   4.00000E-03  9.164E+02  8.970E+02 
   5.00000E-03  5.134E+02  5.027E+02 
   6.00000E-03  3.172E+02  3.103E+02 
   8.00000E-03  1.469E+02  1.429E+02 
   1.00000E-02  8.038E+01  7.754E+01 
   1.50000E-02  2.672E+01  2.508E+01 
   1.89856E-02  1.409E+01  1.291E+01 
K  1.89856E-02  8.784E+01  3.746E+01 
   2.00000E-02  7.712E+01  3.493E+01 
   3.00000E-02  2.666E+01  1.648E+01 
   4.00000E-02  1.223E+01  8.511E+00 
   5.00000E-02  6.644E+00  4.884E+00 
   6.00000E-02  4.032E+00  3.040E+00 
   8.00000E-02  1.852E+00  1.403E+00 
   1.00000E-01  1.037E+00  7.608E-01 
   1.50000E-01  4.023E-01  2.542E-01 
   2.00000E-01  2.344E-01  1.247E-01 
   3.00000E-01  1.357E-01  5.705E-02 
   4.00000E-01  1.040E-01  4.026E-02 
   5.00000E-01  8.831E-02  3.396E-02 
   6.00000E-01  7.858E-02  3.085E-02 
   8.00000E-01  6.642E-02  2.764E-02 
   1.00000E+00  5.866E-02  2.575E-02 
   1.25000E+00  5.196E-02  2.402E-02 
   1.50000E+00  4.741E-02  2.276E-02 
   2.00000E+00  4.185E-02  2.130E-02 
   3.00000E+00  3.686E-02  2.054E-02 
   4.00000E+00  3.498E-02  2.086E-02 
   5.00000E+00  3.436E-02  2.153E-02 
   6.00000E+00  3.432E-02  2.227E-02 
   8.00000E+00  3.508E-02  2.375E-02 
   1.00000E+01  3.628E-02  2.503E-02 
   1.50000E+01  3.944E-02  2.718E-02 
   2.00000E+01  4.224E-02  2.828E-02 
".

(** ries/nonresonant/nist_xrmac/42.txt, verbatim. *)
Definition xrmac_42 : string := "   1.00000E-03  4.942E+03  4.935E+03 
   1.50000E-03  1.925E+03  1.918E+03 
   2.00000E-03  9.593E+02  9.531E+02 
   2.52020E-03  5.415E+02  5.358E+02 
L3 2.52020E-03  1.979E+03  1.924E+03 
   2.57212E-03  1.854E+03  1.802E+03 
   2.62510E-03  1.750E+03  1.703E+03 
L2 2.62510E-03  2.433E+03  2.360E+03 
   2.74267E-03  2.183E+03  2.119E+03 
   2.86550E-03  1.961E+03  1.906E+03 
L1 2.86550E-03  2.243E+03  2.179E+03 
   3.00000E-03  2.011E+03  1.956E+03 
   4.00000E-03  9.703E+02  9.475E+02 
   5.00000E-03  5.450E+02  5.328E+02 
   6.00000E-03  3.373E+02  3.295E+02 
   8.00000E-03  1.565E+02  1.522E+02 
   1.00000E-02  8.576E+01  8.275E+01 
   1.50000E-02  2.854E+01  2.684E+01 
   1.99995E-02  1.308E+01  1.193E+01 
K  1.99995E-02  8.055E+01  3.293E+01 
   2.00000E-02  8.054E+01  3.336E+01 
   3.00000E-02  2.810E+01  1.664E+01 
   4.00000E-02  1.294E+01  8.757E+00 
   5.00000E-02  7.037E+00  5.074E+00 
   6.00000E-02  4.274E+00  3.178E+00 
   8.00000E-02  1.962E+00  1.477E+00 
   1.00000E-01  1.096E+00  8.042E-01 
   1.50000E-01  4.208E-01  2.693E-01 
   2.00000E-01  2.423E-01  1.316E-01 
   3.00000E-01  1.379E-01  5.919E-02 
   4.00000E-01  1.047E-01  4.117E-02 
   5.00000E-01  8.848E-02  3.437E-02 
   6.00000E-01  7.851E-02  3.104E-02 
   8.00000E-01  6.619E-02  2.764E-02 
   1.00000E+00  5.837E-02  2.567E-02 
   1.25000E+00  5.167E-02  2.390E-02 
   1.50000E+00  4.713E-02  2.263E-02 
   2.00000E+00  4.163E-02  2.118E-02 
   3.00000E+00  3.675E-02  2.046E-02 
   4.00000E+00  3.496E-02  2.084E-02 
   5.00000E+00  3.439E-02  2.153E-02 
   6.00000E+00  3.440E-02  2.231E-02 
   8.00000E+00  3.523E-02  2.382E-02 
   1.00000E+01  3.650E-02  2.513E-02 
   1.50000E+01  3.978E-02  2.731E-02 
   2.00000E+01  4.264E-02  2.840E-02 
".

(** ries/nonresonant/nist_xrmac/43.txt, verbatim. *)
Definition xrmac_43 : string := "   1.00000E-03  5.356E+03  5.348E+03 
   1.50000E-03  2.092E+03  2.085E+03 
   2.00000E-03  1.044E+03  1.037E+03 
   2.67690E-03  5.072E+02  5.014E+02 
L3 2.67690E-03  1.812E+03  1.758E+03 
   2.73443E-03  1.699E+03  1.648E+03 
   2.79320E-03  1.602E+03  1.555E+03 
L2 2.79320E-03  2.223E+03  2.151E+03 
   3.00000E-03  1.862E+03  1.805E+03 
   3.04250E-03  1.800E+03  1.745E+03 
L1 3.04250E-03  2.059E+03  1.995E+03 
   4.00000E-03  1.036E+03  1.009E+03 
   5.00000E-03  5.836E+02  5.694E+02 
   6.00000E-03  3.619E+02  3.530E+02 
   8.00000E-03  1.683E+02  1.635E+02 
   1.00000E-02  9.231E+01  8.908E+01 
   1.50000E-02  3.076E+01  2.898E+01 
   2.00000E-02  1.410E+01  1.290E+01 
   2.10440E-02  1.229E+01  1.117E+01 
K  2.10440E-02  7.481E+01  3.014E+01 
   3.00000E-02  2.993E+01  1.693E+01 
   4.00000E-02  1.381E+01  9.075E+00 
   5.00000E-02  7.521E+00  5.312E+00 
   6.00000E-02  4.571E+00  3.348E+00 
   8.00000E-02  2.099E+00  1.568E+00 
   1.00000E-01  1.169E+00  8.572E-01 
   1.50000E-01  4.449E-01  2.880E-01 
   2.00000E-01  2.534E-01  1.403E-01 
   3.00000E-01  1.418E-01  6.214E-02 
   4.00000E-01  1.066E-01  4.257E-02 
   5.00000E-01  8.968E-02  3.521E-02 
   6.00000E-01  7.935E-02  3.159E-02 
   8.00000E-01  6.674E-02  2.797E-02 
   1.00000E+00  5.876E-02  2.589E-02 
   1.25000E+00  5.197E-02  2.406E-02 
   1.50000E+00  4.740E-02  2.276E-02 
   2.00000E+00  4.189E-02  2.129E-02 
   3.00000E+00  3.705E-02  2.061E-02 
   4.00000E+00  3.532E-02  2.103E-02 
   5.00000E+00  3.482E-02  2.178E-02 
   6.00000E+00  3.487E-02  2.258E-02 
   8.00000E+00  3.578E-02  2.415E-02 
   1.00000E+01  3.712E-02  2.549E-02 
   1.50000E+01  4.055E-02  2.774E-02 
   2.00000E+01  4.353E-02  2.884E-02 
".

(** ries/nonresonant/nist_xrmac/44.txt, verbatim. *)
Definition xrmac_44 : string := "   1.00000E-03  5.718E+03  5.709E+03 
   1.50000E-03  2.240E+03  2.233E+03 
   2.00000E-03  1.120E+03  1.113E+03 
   2.83790E-03  4.704E+02  4.646E+02 
L3 2.83790E-03  1.644E+03  1.591E+03 
   2.90168E-03  1.542E+03  1.492E+03 
   2.96690E-03  1.452E+03  1.407E+03 
L2 2.96690E-03  2.317E+03  2.233E+03 
   3.00000E-03  1.963E+03  1.894E+03 
   3.22400E-03  1.638E+03  1.584E+03 
L1 3.22400E-03  1.874E+03  1.811E+03 
   4.00000E-03  1.095E+03  1.063E+03 
   5.00000E-03  6.165E+02  6.000E+02 
   6.00000E-03  3.832E+02  3.731E+02 
   8.00000E-03  1.785E+02  1.733E+02 
   1.00000E-02  9.800E+01  9.456E+01 
   1.50000E-02  3.270E+01  3.085E+01 
   2.00000E-02  1.499E+01  1.376E+01 
   2.21172E-02  1.143E+01  1.035E+01 
K  2.21172E-02  6.876E+01  2.700E+01 
   3.00000E-02  3.139E+01  1.689E+01 
   4.00000E-02  1.452E+01  9.251E+00 
   5.00000E-02  7.926E+00  5.477E+00 
   6.00000E-02  4.822E+00  3.476E+00 
   8.00000E-02  2.215E+00  1.641E+00 
   1.00000E-01  1.232E+00  9.012E-01 
   1.50000E-01  4.647E-01  3.037E-01 
   2.00000E-01  2.618E-01  1.475E-01 
   3.00000E-01  1.440E-01  6.445E-02 
   4.00000E-01  1.074E-01  4.355E-02 
   5.00000E-01  8.992E-02  3.567E-02 
   6.00000E-01  7.933E-02  3.182E-02 
   8.00000E-01  6.647E-02  2.796E-02 
   1.00000E+00  5.846E-02  2.581E-02 
   1.25000E+00  5.166E-02  2.393E-02 
   1.50000E+00  4.710E-02  2.262E-02 
   2.00000E+00  4.164E-02  2.115E-02 
   3.00000E+00  3.692E-02  2.052E-02 
   4.00000E+00  3.527E-02  2.098E-02 
   5.00000E+00  3.482E-02  2.176E-02 
   6.00000E+00  3.491E-02  2.259E-02 
   8.00000E+00  3.591E-02  2.419E-02 
   1.00000E+01  3.730E-02  2.556E-02 
   1.50000E+01  4.084E-02  2.783E-02 
   2.00000E+01  4.387E-02  2.893E-02 
".

(** ries/nonresonant/nist_xrmac/45.txt, verbatim. *)
Definition xrmac_45 : string := "   1.00000E-03  6.169E+03  6.160E+03 
   1.50000E-03  2.426E+03  2.419E+03 
   2.00000E-03  1.214E+03  1.207E+03 
   3.00000E-03  4.441E+02  4.382E+02 
   3.00380E-03  4.427E+02  4.368E+02 
L3 3.00380E-03  1.513E+03  1.461E+03 
   3.07413E-03  1.422E+03  1.372E+03 
   3.14610E-03  1.337E+03  1.292E+03 
L2 3.14610E-03  1.847E+03  1.777E+03 
   3.27631E-03  1.671E+03  1.608E+03 
   3.41190E-03  1.512E+03  1.458E+03 
L1 3.41190E-03  1.731E+03  1.669E+03 
   4.00000E-03  1.170E+03  1.132E+03 
   5.00000E-03  6.589E+02  6.396E+02 
   6.00000E-03  4.101E+02  3.985E+02 
   8.00000E-03  1.915E+02  1.857E+02 
   1.00000E-02  1.053E+02  1.015E+02 
   1.50000E-02  3.518E+01  3.322E+01 
   2.00000E-02  1.613E+01  1.484E+01 
   2.32199E-02  1.079E+01  9.736E+00 
K  2.32199E-02  6.414E+01  2.458E+01 
   3.00000E-02  3.330E+01  1.699E+01 
   4.00000E-02  1.544E+01  9.520E+00 
   5.00000E-02  8.448E+00  5.706E+00 
   6.00000E-02  5.147E+00  3.649E+00 
   8.00000E-02  2.365E+00  1.737E+00 
   1.00000E-01  1.314E+00  9.581E-01 
   1.50000E-01  4.916E-01  3.241E-01 
   2.00000E-01  2.742E-01  1.571E-01 
   3.00000E-01  1.485E-01  6.776E-02 
   4.00000E-01  1.097E-01  4.517E-02 
   5.00000E-01  9.134E-02  3.663E-02 
   6.00000E-01  8.035E-02  3.247E-02 
   8.00000E-01  6.711E-02  2.834E-02 
   1.00000E+00  5.894E-02  2.608E-02 
   1.25000E+00  5.204E-02  2.413E-02 
   1.50000E+00  4.744E-02  2.278E-02 
   2.00000E+00  4.197E-02  2.131E-02 
   3.00000E+00  3.728E-02  2.071E-02 
   4.00000E+00  3.568E-02  2.122E-02 
   5.00000E+00  3.529E-02  2.204E-02 
   6.00000E+00  3.542E-02  2.290E-02 
   8.00000E+00  3.650E-02  2.456E-02 
   1.00000E+01  3.797E-02  2.597E-02 
   1.50000E+01  4.166E-02  2.831E-02 
   2.00000E+01  4.481E-02  2.943E-02 
".

(** ries/nonresonant/nist_xrmac/46.txt, verbatim. *)
Definition xrmac_46 : string := "   1.00000E-03  6.538E+03  6.529E+03 
   1.50000E-03  2.579E+03  2.571E+03 
   2.00000E-03  1.292E+03  1.285E+03 
   3.00000E-03  4.730E+02  4.668E+02 
   3.17330E-03  4.106E+02  4.047E+02 
L3 3.17330E-03  1.355E+03  1.305E+03 
   3.25085E-03  1.287E+03  1.238E+03 
   3.33030E-03  1.215E+03  1.171E+03 
L2 3.33030E-03  1.664E+03  1.597E+03 
   3.46459E-03  1.518E+03  1.456E+03 
   3.60430E-03  1.379E+03  1.326E+03 
L1 3.60430E-03  1.582E+03  1.520E+03 
   4.00000E-03  1.227E+03  1.182E+03 
   5.00000E-03  6.912E+02  6.688E+02 
   6.00000E-03  4.308E+02  4.175E+02 
   8.00000E-03  2.017E+02  1.953E+02 
   1.00000E-02  1.110E+02  1.070E+02 
   1.50000E-02  3.715E+01  3.511E+01 
   2.00000E-02  1.704E+01  1.571E+01 
   2.43503E-02  1.003E+01  9.016E+00 
K  2.43503E-02  5.898E+01  2.208E+01 
   3.00000E-02  3.465E+01  1.669E+01 
   4.00000E-02  1.614E+01  9.611E+00 
   5.00000E-02  8.850E+00  5.833E+00 
   6.00000E-02  5.399E+00  3.759E+00 
   8.00000E-02  2.481E+00  1.804E+00 
   1.00000E-01  1.377E+00  1.000E+00 
   1.50000E-01  5.115E-01  3.397E-01 
   2.00000E-01  2.827E-01  1.644E-01 
   3.00000E-01  1.506E-01  7.007E-02 
   4.00000E-01  1.103E-01  4.611E-02 
   5.00000E-01  9.134E-02  3.704E-02 
   6.00000E-01  8.010E-02  3.262E-02 
   8.00000E-01  6.669E-02  2.828E-02 
   1.00000E+00  5.849E-02  2.594E-02 
   1.25000E+00  5.159E-02  2.395E-02 
   1.50000E+00  4.702E-02  2.259E-02 
   2.00000E+00  4.162E-02  2.112E-02 
   3.00000E+00  3.704E-02  2.056E-02 
   4.00000E+00  3.552E-02  2.111E-02 
   5.00000E+00  3.518E-02  2.196E-02 
   6.00000E+00  3.537E-02  2.284E-02 
   8.00000E+00  3.651E-02  2.453E-02 
   1.00000E+01  3.802E-02  2.595E-02 
   1.50000E+01  4.181E-02  2.832E-02 
   2.00000E+01  4.501E-02  2.944E-02 
".

(** ries/nonresonant/nist_xrmac/47.txt, verbatim. *)
Definition xrmac_47 : string := "   1.00000E-03  7.039E+03  7.029E+03 
   1.50000E-03  2.790E+03  2.782E+03 
   2.00000E-03  1.401E+03  1.393E+03 
   3.00000E-03  5.136E+02  5.073E+02 
   3.35110E-03  3.887E+02  3.827E+02 
L3 3.35110E-03  1.274E+03  1.223E+03 
   3.43632E-03  1.200E+03  1.151E+03 
   3.52370E-03  1.126E+03  1.082E+03 
L2 3.52370E-03  1.547E+03  1.479E+03 
   3.66203E-03  1.409E+03  1.348E+03 
   3.80580E-03  1.282E+03  1.229E+03 
L1 3.80580E-03  1.468E+03  1.406E+03 
   4.00000E-03  1.305E+03  1.252E+03 
   5.00000E-03  7.385E+02  7.122E+02 
   6.00000E-03  4.610E+02  4.457E+02 
   8.00000E-03  2.164E+02  2.092E+02 
   1.00000E-02  1.193E+02  1.149E+02 
   1.50000E-02  3.998E+01  3.780E+01 
   2.00000E-02  1.836E+01  1.695E+01 
   2.55140E-02  9.527E+00  8.534E+00 
K  2.55140E-02  5.539E+01  2.031E+01 
   3.00000E-02  3.668E+01  1.660E+01 
   4.00000E-02  1.720E+01  9.869E+00 
   5.00000E-02  9.444E+00  6.066E+00 
   6.00000E-02  5.766E+00  3.938E+00 
   8.00000E-02  2.651E+00  1.907E+00 
   1.00000E-01  1.470E+00  1.062E+00 
   1.50000E-01  5.426E-01  3.622E-01 
   2.00000E-01  2.972E-01  1.751E-01 
   3.00000E-01  1.560E-01  7.392E-02 
   4.00000E-01  1.131E-01  4.803E-02 
   5.00000E-01  9.321E-02  3.822E-02 
   6.00000E-01  8.153E-02  3.347E-02 
   8.00000E-01  6.766E-02  2.881E-02 
   1.00000E+00  5.921E-02  2.632E-02 
   1.25000E+00  5.217E-02  2.425E-02 
   1.50000E+00  4.754E-02  2.284E-02 
   2.00000E+00  4.209E-02  2.135E-02 
   3.00000E+00  3.754E-02  2.082E-02 
   4.00000E+00  3.606E-02  2.142E-02 
   5.00000E+00  3.577E-02  2.232E-02 
   6.00000E+00  3.601E-02  2.324E-02 
   8.00000E+00  3.723E-02  2.499E-02 
   1.00000E+01  3.882E-02  2.647E-02 
   1.50000E+01  4.276E-02  2.889E-02 
   2.00000E+01  4.609E-02  3.005E-02 
".

(** ries/nonresonant/nist_xrmac/48.txt, verbatim. *)
Definition xrmac_48 : string := "   1.00000E-03  7.350E+03  7.340E+03 
   1.50000E-03  2.931E+03  2.922E+03 
   2.00000E-03  1.473E+03  1.466E+03 
   3.00000E-03  5.414E+02  5.350E+02 
   3.53750E-03  3.575E+02  3.517E+02 
L3 3.53750E-03  1.152E+03  1.103E+03 
   3.63101E-03  1.083E+03  1.036E+03 
   3.72700E-03  1.013E+03  9.715E+02 
L2 3.72700E-03  1.389E+03  1.324E+03 
   4.00000E-03  1.170E+03  1.118E+03 
   4.01800E-03  1.157E+03  1.106E+03 
L1 4.01800E-03  1.324E+03  1.264E+03 
   5.00000E-03  7.685E+02  7.383E+02 
   6.00000E-03  4.793E+02  4.619E+02 
   8.00000E-03  2.254E+02  2.174E+02 
   1.00000E-02  1.244E+02  1.197E+02 
   1.50000E-02  4.178E+01  3.952E+01 
   2.00000E-02  1.920E+01  1.776E+01 
   2.67112E-02  8.809E+00  7.863E+00 
K  2.67112E-02  5.065E+01  1.821E+01 
   3.00000E-02  3.765E+01  1.594E+01 
   4.00000E-02  1.778E+01  9.812E+00 
   5.00000E-02  9.779E+00  6.115E+00 
   6.00000E-02  5.975E+00  4.001E+00 
   8.00000E-02  2.751E+00  1.957E+00 
   1.00000E-01  1.524E+00  1.096E+00 
   1.50000E-01  5.593E-01  3.753E-01 
   2.00000E-01  3.038E-01  1.813E-01 
   3.00000E-01  1.571E-01  7.580E-02 
   4.00000E-01  1.129E-01  4.868E-02 
   5.00000E-01  9.250E-02  3.838E-02 
   6.00000E-01  8.064E-02  3.339E-02 
   8.00000E-01  6.670E-02  2.854E-02 
   1.00000E+00  5.826E-02  2.597E-02 
   1.25000E+00  5.129E-02  2.387E-02 
   1.50000E+00  4.673E-02  2.247E-02 
   2.00000E+00  4.139E-02  2.099E-02 
   3.00000E+00  3.698E-02  2.051E-02 
   4.00000E+00  3.559E-02  2.114E-02 
   5.00000E+00  3.536E-02  2.206E-02 
   6.00000E+00  3.563E-02  2.300E-02 
   8.00000E+00  3.691E-02  2.477E-02 
   1.00000E+01  3.853E-02  2.625E-02 
   1.50000E+01  4.253E-02  2.869E-02 
   2.00000E+01  4.587E-02  2.985E-02 
".

(** ries/nonresonant/nist_xrmac/49.txt, verbatim. *)
Definition xrmac_49 : string := "   1.00000E-03  7.809E+03  7.797E+03 
   1.50000E-03  3.131E+03  3.122E+03 
   2.00000E-03  1.578E+03  1.570E+03 
   3.00000E-03  5.808E+02  5.743E+02 
   3.73010E-03  3.356E+02  3.298E+02 
L3 3.73010E-03  1.046E+03  9.989E+02 
   3.83264E-03  9.930E+02  9.465E+02 
   3.93800E-03  9.313E+02  8.905E+02 
L2 3.93800E-03  1.261E+03  1.199E+03 
   4.00000E-03  1.231E+03  1.170E+03 
   4.23750E-03  1.066E+03  1.016E+03 
L1 4.23750E-03  1.223E+03  1.164E+03 
   5.00000E-03  8.134E+02  7.780E+02 
   6.00000E-03  5.072E+02  4.871E+02 
   8.00000E-03  2.391E+02  2.301E+02 
   1.00000E-02  1.321E+02  1.269E+02 
   1.50000E-02  4.445E+01  4.206E+01 
   2.00000E-02  2.044E+01  1.893E+01 
   2.79399E-02  8.316E+00  7.395E+00 
K  2.79399E-02  4.733E+01  1.670E+01 
   3.00000E-02  3.949E+01  1.553E+01 
   4.00000E-02  1.873E+01  9.911E+00 
   5.00000E-02  1.030E+01  6.262E+00 
   6.00000E-02  6.306E+00  4.135E+00 
   8.00000E-02  2.907E+00  2.043E+00 
   1.00000E-01  1.609E+00  1.150E+00 
   1.50000E-01  5.876E-01  3.960E-01 
   2.00000E-01  3.167E-01  1.913E-01 
   3.00000E-01  1.614E-01  7.923E-02 
   4.00000E-01  1.149E-01  5.031E-02 
   5.00000E-01  9.371E-02  3.932E-02 
   6.00000E-01  8.138E-02  3.398E-02 
   8.00000E-01  6.707E-02  2.883E-02 
   1.00000E+00  5.849E-02  2.615E-02 
   1.25000E+00  5.144E-02  2.398E-02 
   1.50000E+00  4.684E-02  2.254E-02 
   2.00000E+00  4.151E-02  2.105E-02 
   3.00000E+00  3.715E-02  2.060E-02 
   4.00000E+00  3.582E-02  2.127E-02 
   5.00000E+00  3.564E-02  2.223E-02 
   6.00000E+00  3.596E-02  2.321E-02 
   8.00000E+00  3.730E-02  2.502E-02 
   1.00000E+01  3.898E-02  2.653E-02 
   1.50000E+01  4.311E-02  2.903E-02 
   2.00000E+01  4.654E-02  3.020E-02 
".

(** ries/nonresonant/nist_xrmac/50.txt, verbatim. *)
Definition xrmac_50 : string := "   1.00000E-03  8.157E+03  8.144E+03 
   1.50000E-03  3.296E+03  3.287E+03 
   2.00000E-03  1.665E+03  1.657E+03 
   3.00000E-03  6.143E+02  6.077E+02 
   3.92880E-03  3.114E+02  3.058E+02 
L3 3.92880E-03  9.285E+02  8.845E+02 
   4.00000E-03  9.393E+02  8.945E+02 
   4.15610E-03  8.469E+02  8.074E+02 
L2 4.15610E-03  1.145E+03  1.084E+03 
   4.30764E-03  1.060E+03  1.002E+03 
   4.46470E-03  9.712E+02  9.221E+02 
L1 4.46470E-03  1.117E+03  1.059E+03 
   5.00000E-03  8.471E+02  8.064E+02 
   6.00000E-03  5.294E+02  5.065E+02 
   8.00000E-03  2.500E+02  2.400E+02 
   1.00000E-02  1.384E+02  1.327E+02 
   1.50000E-02  4.664E+01  4.413E+01 
   2.00000E-02  2.146E+01  1.990E+01 
   2.92001E-02  7.760E+00  6.876E+00 
K  2.92001E-02  4.360E+01  1.514E+01 
   3.00000E-02  4.121E+01  1.490E+01 
   4.00000E-02  1.942E+01  9.835E+00 
   5.00000E-02  1.070E+01  6.314E+00 
   6.00000E-02  6.564E+00  4.211E+00 
   8.00000E-02  3.029E+00  2.101E+00 
   1.00000E-01  1.676E+00  1.189E+00 
   1.50000E-01  6.091E-01  4.119E-01 
   2.00000E-01  3.260E-01  1.990E-01 
   3.00000E-01  1.639E-01  8.179E-02 
   4.00000E-01  1.156E-01  5.138E-02 
   5.00000E-01  9.374E-02  3.980E-02 
   6.00000E-01  8.113E-02  3.417E-02 
   8.00000E-01  6.662E-02  2.878E-02 
   1.00000E+00  5.800E-02  2.601E-02 
   1.25000E+00  5.095E-02  2.379E-02 
   1.50000E+00  4.638E-02  2.233E-02 
   2.00000E+00  4.112E-02  2.085E-02 
   3.00000E+00  3.686E-02  2.044E-02 
   4.00000E+00  3.561E-02  2.115E-02 
   5.00000E+00  3.548E-02  2.213E-02 
   6.00000E+00  3.583E-02  2.312E-02 
   8.00000E+00  3.724E-02  2.496E-02 
   1.00000E+01  3.895E-02  2.649E-02 
   1.50000E+01  4.315E-02  2.901E-02 
   2.00000E+01  4.662E-02  3.018E-02 
".

(** ries/nonresonant/nist_xrmac/51.txt, verbatim. *)
Definition xrmac_51 : string := "   1.00000E-03  8.582E+03  8.568E+03 
   1.50000E-03  3.491E+03  3.481E+03 
   2.00000E-03  1.767E+03  1.759E+03 
   3.00000E-03  6.536E+02  6.469E+02 
   4.00000E-03  3.169E+02  3.113E+02 
   4.13220E-03  2.918E+02  2.863E+02 
L3 4.13220E-03  8.691E+02  8.252E+02 
   4.25449E-03  8.308E+02  7.865E+02 
   4.38040E-03  7.776E+02  7.392E+02 
L2 4.38040E-03  1.050E+03  9.906E+02 
   4.53657E-03  9.743E+02  9.178E+02 
   4.69830E-03  8.939E+02  8.457E+02 
L1 4.69830E-03  1.029E+03  9.725E+02 
   5.00000E-03  8.846E+02  8.377E+02 
   6.00000E-03  5.569E+02  5.305E+02 
   8.00000E-03  2.631E+02  2.518E+02 
   1.00000E-02  1.459E+02  1.396E+02 
   1.50000E-02  4.923E+01  4.657E+01 
   2.00000E-02  2.268E+01  2.105E+01 
   3.00000E-02  7.631E+00  6.755E+00 
   3.04912E-02  7.307E+00  6.452E+00 
K  3.04912E-02  4.073E+01  1.391E+01 
   4.00000E-02  2.027E+01  9.789E+00 
   5.00000E-02  1.120E+01  6.400E+00 
   6.00000E-02  6.879E+00  4.311E+00 
   8.00000E-02  3.176E+00  2.173E+00 
   1.00000E-01  1.758E+00  1.237E+00 
   1.50000E-01  6.361E-01  4.312E-01 
   2.00000E-01  3.381E-01  2.084E-01 
   3.00000E-01  1.677E-01  8.504E-02 
   4.00000E-01  1.172E-01  5.288E-02 
   5.00000E-01  9.453E-02  4.061E-02 
   6.00000E-01  8.153E-02  3.465E-02 
   8.00000E-01  6.670E-02  2.896E-02 
   1.00000E+00  5.797E-02  2.608E-02 
   1.25000E+00  5.086E-02  2.378E-02 
   1.50000E+00  4.628E-02  2.230E-02 
   2.00000E+00  4.105E-02  2.081E-02 
   3.00000E+00  3.686E-02  2.043E-02 
   4.00000E+00  3.567E-02  2.118E-02 
   5.00000E+00  3.559E-02  2.219E-02 
   6.00000E+00  3.598E-02  2.321E-02 
   8.00000E+00  3.745E-02  2.509E-02 
   1.00000E+01  3.921E-02  2.664E-02 
   1.50000E+01  4.351E-02  2.920E-02 
   2.00000E+01  4.704E-02  3.038E-02 
".

(** ries/nonresonant/nist_xrmac/52.txt, verbatim. *)
Definition xrmac_52 : string := "   1.00000E-03  8.434E+03  8.419E+03 
   1.00300E-03  8.380E+03  8.365E+03 
   1.00600E-03  8.326E+03  8.311E+03 
M1 1.00600E-03  8.684E+03  8.668E+03 
   1.50000E-03  3.608E+03  3.598E+03 
   2.00000E-03  1.832E+03  1.824E+03 
   3.00000E-03  6.792E+02  6.726E+02 
   4.00000E-03  3.297E+02  3.240E+02 
   4.34140E-03  2.678E+02  2.625E+02 
L3 4.34140E-03  7.882E+02  7.460E+02 
   4.47465E-03  7.504E+02  7.078E+02 
   4.61200E-03  6.995E+02  6.629E+02 
L2 4.61200E-03  9.445E+02  8.880E+02 
   4.77280E-03  8.782E+02  8.237E+02 
   4.93920E-03  8.062E+02  7.600E+02 
L1 4.93920E-03  9.292E+02  8.744E+02 
   5.00000E-03  9.014E+02  8.487E+02 
   6.00000E-03  5.721E+02  5.423E+02 
   8.00000E-03  2.702E+02  2.578E+02 
   1.00000E-02  1.501E+02  1.433E+02 
   1.50000E-02  5.078E+01  4.802E+01 
   2.00000E-02  2.341E+01  2.175E+01 
   3.00000E-02  7.878E+00  6.997E+00 
   3.18138E-02  6.738E+00  5.929E+00 
K  3.18138E-02  3.719E+01  1.251E+01 
   4.00000E-02  2.064E+01  9.480E+00 
   5.00000E-02  1.145E+01  6.330E+00 
   6.00000E-02  7.041E+00  4.306E+00 
   8.00000E-02  3.255E+00  2.195E+00 
   1.00000E-01  1.801E+00  1.256E+00 
   1.50000E-01  6.492E-01  4.409E-01 
   2.00000E-01  3.429E-01  2.132E-01 
   3.00000E-01  1.679E-01  8.646E-02 
   4.00000E-01  1.163E-01  5.326E-02 
   5.00000E-01  9.328E-02  4.055E-02 
   6.00000E-01  8.022E-02  3.440E-02 
   8.00000E-01  6.538E-02  2.854E-02 
   1.00000E+00  5.669E-02  2.559E-02 
   1.25000E+00  4.967E-02  2.327E-02 
   1.50000E+00  4.518E-02  2.179E-02 
   2.00000E+00  4.009E-02  2.033E-02 
   3.00000E+00  3.606E-02  1.998E-02 
   4.00000E+00  3.494E-02  2.075E-02 
   5.00000E+00  3.492E-02  2.177E-02 
   6.00000E+00  3.534E-02  2.279E-02 
   8.00000E+00  3.683E-02  2.466E-02 
   1.00000E+01  3.860E-02  2.620E-02 
   1.50000E+01  4.290E-02  2.873E-02 
   2.00000E+01  4.642E-02  2.989E-02 
".

(** ries/nonresonant/nist_xrmac/53.txt, verbatim. *)
Definition xrmac_53 : string := "   1.00000E-03  9.096E+03  9.078E+03 
   1.03542E-03  8.465E+03  8.448E+03 
   1.07210E-03  7.863E+03  7.847E+03 
M1 1.07210E-03  8.198E+03  8.181E+03 
   1.50000E-03  3.919E+03  3.908E+03 
   2.00000E-03  1.997E+03  1.988E+03 
   3.00000E-03  7.420E+02  7.351E+02 
   4.00000E-03  3.607E+02  3.548E+02 
   4.55710E-03  2.592E+02  2.537E+02 
L3 4.55710E-03  7.550E+02  7.121E+02 
   4.70229E-03  7.123E+02  6.724E+02 
   4.85210E-03  6.636E+02  6.270E+02 
L2 4.85210E-03  8.943E+02  8.375E+02 
   5.00000E-03  8.430E+02  7.903E+02 
   5.18810E-03  7.665E+02  7.198E+02 
L1 5.18810E-03  8.837E+02  8.283E+02 
   6.00000E-03  6.173E+02  5.822E+02 
   8.00000E-03  2.922E+02  2.777E+02 
   1.00000E-02  1.626E+02  1.548E+02 
   1.50000E-02  5.512E+01  5.208E+01 
   2.00000E-02  2.543E+01  2.363E+01 
   3.00000E-02  8.561E+00  7.622E+00 
   3.31694E-02  6.553E+00  5.744E+00 
K  3.31694E-02  3.582E+01  1.188E+01 
   4.00000E-02  2.210E+01  9.616E+00 
   5.00000E-02  1.232E+01  6.573E+00 
   6.00000E-02  7.579E+00  4.518E+00 
   8.00000E-02  3.510E+00  2.331E+00 
   1.00000E-01  1.942E+00  1.342E+00 
   1.50000E-01  6.978E-01  4.742E-01 
   2.00000E-01  3.663E-01  2.295E-01 
   3.00000E-01  1.771E-01  9.257E-02 
   4.00000E-01  1.217E-01  5.650E-02 
   5.00000E-01  9.701E-02  4.267E-02 
   6.00000E-01  8.313E-02  3.598E-02 
   8.00000E-01  6.749E-02  2.962E-02 
   1.00000E+00  5.841E-02  2.646E-02 
   1.25000E+00  5.111E-02  2.399E-02 
   1.50000E+00  4.647E-02  2.243E-02 
   2.00000E+00  4.124E-02  2.092E-02 
   3.00000E+00  3.716E-02  2.059E-02 
   4.00000E+00  3.607E-02  2.142E-02 
   5.00000E+00  3.608E-02  2.250E-02 
   6.00000E+00  3.655E-02  2.357E-02 
   8.00000E+00  3.815E-02  2.553E-02 
   1.00000E+01  4.002E-02  2.714E-02 
   1.50000E+01  4.455E-02  2.980E-02 
   2.00000E+01  4.823E-02  3.101E-02 
".

(** ries/nonresonant/nist_xrmac/54.txt, verbatim. *)
Definition xrmac_54 : string := "   1.00000E-03  9.413E+03  9.393E+03 
   1.07191E-03  8.151E+03  8.132E+03 
   1.14900E-03  7.035E+03  7.019E+03 
M1 1.14900E-03  7.338E+03  7.321E+03 
   1.50000E-03  4.085E+03  4.073E+03 
   2.00000E-03  2.088E+03  2.078E+03 
   3.00000E-03  7.780E+02  7.709E+02 
   4.00000E-03  3.787E+02  3.728E+02 
   4.78220E-03  2.408E+02  2.355E+02 
L3 4.78220E-03  6.941E+02  6.524E+02 
   5.00000E-03  6.392E+02  6.015E+02 
   5.10370E-03  6.044E+02  5.693E+02 
L2 5.10370E-03  8.181E+02  7.630E+02 
   5.27536E-03  7.579E+02  7.079E+02 
   5.45280E-03  6.991E+02  6.539E+02 
L1 5.45280E-03  8.064E+02  7.527E+02 
   6.00000E-03  6.376E+02  5.979E+02 
   8.00000E-03  3.032E+02  2.871E+02 
   1.00000E-02  1.690E+02  1.605E+02 
   1.50000E-02  5.743E+01  5.420E+01 
   2.00000E-02  2.652E+01  2.465E+01 
   3.00000E-02  8.930E+00  7.969E+00 
   3.45614E-02  6.129E+00  5.352E+00 
K  3.45614E-02  3.316E+01  1.086E+01 
   4.00000E-02  2.270E+01  9.323E+00 
   5.00000E-02  1.272E+01  6.540E+00 
   6.00000E-02  7.825E+00  4.541E+00 
   8.00000E-02  3.633E+00  2.374E+00 
   1.00000E-01  2.011E+00  1.376E+00 
   1.50000E-01  7.202E-01  4.894E-01 
   2.00000E-01  3.760E-01  2.373E-01 
   3.00000E-01  1.797E-01  9.522E-02 
   4.00000E-01  1.223E-01  5.761E-02 
   5.00000E-01  9.699E-02  4.317E-02 
   6.00000E-01  8.281E-02  3.617E-02 
   8.00000E-01  6.696E-02  2.956E-02 
   1.00000E+00  5.785E-02  2.630E-02 
   1.25000E+00  5.054E-02  2.378E-02 
   1.50000E+00  4.594E-02  2.221E-02 
   2.00000E+00  4.078E-02  2.070E-02 
   3.00000E+00  3.681E-02  2.042E-02 
   4.00000E+00  3.577E-02  2.128E-02 
   5.00000E+00  3.583E-02  2.240E-02 
   6.00000E+00  3.634E-02  2.350E-02 
   8.00000E+00  3.797E-02  2.553E-02 
   1.00000E+01  3.987E-02  2.720E-02 
   1.50000E+01  4.445E-02  3.002E-02 
   2.00000E+01  4.815E-02  3.139E-02 
".

(** ries/nonresonant/nist_xrmac/55.txt, verbatim. *)
Definition xrmac_55 : string := "   1.00000E-03  9.365E+03  9.343E+03 
   1.03199E-03  8.775E+03  8.754E+03 
   1.06500E-03  8.214E+03  8.194E+03 
M2 1.06500E-03  8.685E+03  8.663E+03 
   1.13851E-03  7.576E+03  7.557E+03 
   1.21710E-03  6.584E+03  6.567E+03 
M1 1.21710E-03  6.888E+03  6.870E+03 
   1.50000E-03  4.335E+03  4.322E+03 
   2.00000E-03  2.226E+03  2.216E+03 
   3.00000E-03  8.319E+02  8.246E+02 
   4.00000E-03  4.055E+02  3.994E+02 
   5.00000E-03  2.303E+02  2.251E+02 
   5.01190E-03  2.290E+02  2.237E+02 
L3 5.01190E-03  6.674E+02  6.248E+02 
   5.18274E-03  6.184E+02  5.763E+02 
   5.35940E-03  5.645E+02  5.299E+02 
L2 5.35940E-03  7.692E+02  7.142E+02 
   5.53401E-03  7.146E+02  6.610E+02 
   5.71430E-03  6.556E+02  6.108E+02 
L1 5.71430E-03  7.547E+02  7.015E+02 
   6.00000E-03  6.711E+02  6.253E+02 
   8.00000E-03  3.214E+02  3.029E+02 
   1.00000E-02  1.793E+02  1.697E+02 
   1.50000E-02  6.104E+01  5.753E+01 
   2.00000E-02  2.822E+01  2.623E+01 
   3.00000E-02  9.507E+00  8.502E+00 
   3.59846E-02  5.863E+00  5.102E+00 
K  3.59846E-02  3.143E+01  1.017E+01 
   4.00000E-02  2.381E+01  9.185E+00 
   5.00000E-02  1.340E+01  6.618E+00 
   6.00000E-02  8.248E+00  4.653E+00 
   8.00000E-02  3.836E+00  2.464E+00 
   1.00000E-01  2.124E+00  1.438E+00 
   1.50000E-01  7.589E-01  5.154E-01 
   2.00000E-01  3.941E-01  2.502E-01 
   3.00000E-01  1.863E-01  1.000E-01 
   4.00000E-01  1.257E-01  6.003E-02 
   5.00000E-01  9.912E-02  4.463E-02 
   6.00000E-01  8.431E-02  3.717E-02 
   8.00000E-01  6.789E-02  3.014E-02 
   1.00000E+00  5.854E-02  2.671E-02 
   1.25000E+00  5.108E-02  2.408E-02 
   1.50000E+00  4.641E-02  2.246E-02 
   2.00000E+00  4.121E-02  2.091E-02 
   3.00000E+00  3.725E-02  2.064E-02 
   4.00000E+00  3.625E-02  2.153E-02 
   5.00000E+00  3.635E-02  2.268E-02 
   6.00000E+00  3.689E-02  2.380E-02 
   8.00000E+00  3.860E-02  2.583E-02 
   1.00000E+01  4.057E-02  2.750E-02 
   1.50000E+01  4.529E-02  3.026E-02 
   2.00000E+01  4.910E-02  3.152E-02 
".

(** ries/nonresonant/nist_xrmac/56.txt, verbatim. *)
Definition xrmac_56 : string := "   1.00000E-03  8.543E+03  8.521E+03 
   1.03063E-03  7.990E+03  7.969E+03 
   1.06220E-03  7.465E+03  7.445E+03 
M3 1.06220E-03  8.547E+03  8.524E+03 
   1.09882E-03  7.957E+03  7.935E+03 
   1.13670E-03  7.404E+03  7.384E+03 
M2 1.13670E-03  7.837E+03  7.815E+03 
   1.21224E-03  6.861E+03  6.841E+03 
   1.29280E-03  5.985E+03  5.968E+03 
M1 1.29280E-03  6.255E+03  6.237E+03 
   1.50000E-03  4.499E+03  4.485E+03 
   2.00000E-03  2.319E+03  2.308E+03 
   3.00000E-03  8.696E+02  8.622E+02 
   4.00000E-03  4.246E+02  4.184E+02 
   5.00000E-03  2.414E+02  2.361E+02 
   5.24700E-03  2.135E+02  2.084E+02 
L3 5.24700E-03  6.098E+02  5.689E+02 
   5.43204E-03  5.634E+02  5.263E+02 
   5.62360E-03  5.169E+02  4.835E+02 
L2 5.62360E-03  7.016E+02  6.486E+02 
   5.80333E-03  6.507E+02  6.025E+02 
   5.98880E-03  6.013E+02  5.577E+02 
L1 5.98880E-03  6.930E+02  6.412E+02 
   6.00000E-03  6.898E+02  6.383E+02 
   8.00000E-03  3.334E+02  3.127E+02 
   1.00000E-02  1.860E+02  1.754E+02 
   1.50000E-02  6.347E+01  5.972E+01 
   2.00000E-02  2.938E+01  2.730E+01 
   3.00000E-02  9.904E+00  8.875E+00 
   3.74406E-02  5.498E+00  4.768E+00 
K  3.74406E-02  2.919E+01  9.346E+00 
   4.00000E-02  2.457E+01  8.842E+00 
   5.00000E-02  1.379E+01  6.534E+00 
   6.00000E-02  8.511E+00  4.660E+00 
   8.00000E-02  3.963E+00  2.501E+00 
   1.00000E-01  2.196E+00  1.470E+00 
   1.50000E-01  7.828E-01  5.309E-01 
   2.00000E-01  4.046E-01  2.583E-01 
   3.00000E-01  1.891E-01  1.028E-01 
   4.00000E-01  1.265E-01  6.125E-02 
   5.00000E-01  9.923E-02  4.521E-02 
   6.00000E-01  8.410E-02  3.743E-02 
   8.00000E-01  6.744E-02  3.011E-02 
   1.00000E+00  5.803E-02  2.657E-02 
   1.25000E+00  5.058E-02  2.388E-02 
   1.50000E+00  4.592E-02  2.224E-02 
   2.00000E+00  4.078E-02  2.069E-02 
   3.00000E+00  3.692E-02  2.044E-02 
   4.00000E+00  3.598E-02  2.135E-02 
   5.00000E+00  3.612E-02  2.250E-02 
   6.00000E+00  3.669E-02  2.363E-02 
   8.00000E+00  3.844E-02  2.566E-02 
   1.00000E+01  4.042E-02  2.731E-02 
   1.50000E+01  4.518E-02  3.003E-02 
   2.00000E+01  4.902E-02  3.126E-02 
".

(** ries/nonresonant/nist_xrmac/57.txt, verbatim. *)
Definition xrmac_57 : string := "   1.00000E-03  9.087E+03  9.061E+03 
   1.05991E-03  7.988E+03  7.965E+03 
   1.12340E-03  7.000E+03  6.979E+03 
M3 1.12340E-03  8.025E+03  8.001E+03 
   1.16320E-03  7.447E+03  7.425E+03 
   1.20440E-03  6.911E+03  6.890E+03 
M2 1.20440E-03  7.321E+03  7.298E+03 
   1.28045E-03  6.440E+03  6.419E+03 
   1.36130E-03  5.652E+03  5.634E+03 
M1 1.36130E-03  5.905E+03  5.886E+03 
   1.50000E-03  4.772E+03  4.755E+03 
   2.00000E-03  2.464E+03  2.453E+03 
   3.00000E-03  9.267E+02  9.190E+02 
   4.00000E-03  4.531E+02  4.468E+02 
   5.00000E-03  2.578E+02  2.524E+02 
   5.48270E-03  2.039E+02  1.988E+02 
L3 5.48270E-03  5.764E+02  5.356E+02 
   5.68299E-03  5.302E+02  4.935E+02 
   5.89060E-03  4.846E+02  4.517E+02 
L2 5.89060E-03  6.545E+02  6.023E+02 
   6.00000E-03  6.319E+02  5.819E+02 
   6.26630E-03  5.654E+02  5.221E+02 
L1 6.26630E-03  6.518E+02  6.003E+02 
   8.00000E-03  3.529E+02  3.290E+02 
   1.00000E-02  1.967E+02  1.847E+02 
   1.50000E-02  6.731E+01  6.321E+01 
   2.00000E-02  3.119E+01  2.897E+01 
   3.00000E-02  1.052E+01  9.444E+00 
   3.89246E-02  5.271E+00  4.554E+00 
K  3.89246E-02  2.772E+01  8.785E+00 
   4.00000E-02  2.579E+01  8.608E+00 
   5.00000E-02  1.447E+01  6.560E+00 
   6.00000E-02  8.962E+00  4.756E+00 
   8.00000E-02  4.177E+00  2.587E+00 
   1.00000E-01  2.315E+00  1.532E+00 
   1.50000E-01  8.239E-01  5.576E-01 
   2.00000E-01  4.239E-01  2.718E-01 
   3.00000E-01  1.961E-01  1.079E-01 
   4.00000E-01  1.301E-01  6.382E-02 
   5.00000E-01  1.015E-01  4.677E-02 
   6.00000E-01  8.570E-02  3.849E-02 
   8.00000E-01  6.843E-02  3.073E-02 
   1.00000E+00  5.876E-02  2.700E-02 
   1.25000E+00  5.110E-02  2.418E-02 
   1.50000E+00  4.640E-02  2.249E-02 
   2.00000E+00  4.122E-02  2.090E-02 
   3.00000E+00  3.737E-02  2.068E-02 
   4.00000E+00  3.646E-02  2.161E-02 
   5.00000E+00  3.664E-02  2.280E-02 
   6.00000E+00  3.726E-02  2.395E-02 
   8.00000E+00  3.907E-02  2.602E-02 
   1.00000E+01  4.113E-02  2.769E-02 
   1.50000E+01  4.603E-02  3.043E-02 
   2.00000E+01  4.996E-02  3.163E-02 
".

(** ries/nonresonant/nist_xrmac/58.txt, verbatim. *)
Definition xrmac_58 : string := "   1.00000E-03  9.711E+03  9.679E+03 
   1.08876E-03  7.991E+03  7.964E+03 
   1.18540E-03  6.563E+03  6.541E+03 
M3 1.18540E-03  7.545E+03  7.519E+03 
   1.22832E-03  6.984E+03  6.960E+03 
   1.27280E-03  6.465E+03  6.442E+03 
M2 1.27280E-03  6.853E+03  6.829E+03 
   1.35222E-03  6.031E+03  6.010E+03 
   1.43660E-03  5.293E+03  5.273E+03 
M1 1.43660E-03  5.532E+03  5.512E+03 
   1.50000E-03  5.033E+03  5.015E+03 
   2.00000E-03  2.607E+03  2.595E+03 
   3.00000E-03  9.857E+02  9.776E+02 
   4.00000E-03  4.811E+02  4.745E+02 
   5.00000E-03  2.740E+02  2.684E+02 
   5.72340E-03  1.943E+02  1.892E+02 
L3 5.72340E-03  5.454E+02  5.046E+02 
   6.00000E-03  4.908E+02  4.550E+02 
   6.16420E-03  4.554E+02  4.228E+02 
L2 6.16420E-03  6.188E+02  5.665E+02 
   6.35359E-03  5.756E+02  5.278E+02 
   6.54880E-03  5.332E+02  4.899E+02 
L1 6.54880E-03  6.149E+02  5.633E+02 
   8.00000E-03  3.732E+02  3.458E+02 
   1.00000E-02  2.082E+02  1.945E+02 
   1.50000E-02  7.143E+01  6.690E+01 
   2.00000E-02  3.312E+01  3.073E+01 
   3.00000E-02  1.119E+01  1.005E+01 
   4.00000E-02  5.215E+00  4.496E+00 
   4.04430E-02  5.066E+00  4.359E+00 
K  4.04430E-02  2.635E+01  8.272E+00 
   5.00000E-02  1.520E+01  6.569E+00 
   6.00000E-02  9.447E+00  4.847E+00 
   8.00000E-02  4.409E+00  2.677E+00 
   1.00000E-01  2.445E+00  1.597E+00 
   1.50000E-01  8.687E-01  5.862E-01 
   2.00000E-01  4.452E-01  2.865E-01 
   3.00000E-01  2.039E-01  1.134E-01 
   4.00000E-01  1.342E-01  6.664E-02 
   5.00000E-01  1.041E-01  4.851E-02 
   6.00000E-01  8.757E-02  3.970E-02 
   8.00000E-01  6.962E-02  3.145E-02 
   1.00000E+00  5.961E-02  2.750E-02 
   1.25000E+00  5.181E-02  2.456E-02 
   1.50000E+00  4.701E-02  2.281E-02 
   2.00000E+00  4.177E-02  2.118E-02 
   3.00000E+00  3.792E-02  2.096E-02 
   4.00000E+00  3.705E-02  2.194E-02 
   5.00000E+00  3.727E-02  2.316E-02 
   6.00000E+00  3.792E-02  2.434E-02 
   8.00000E+00  3.981E-02  2.645E-02 
   1.00000E+01  4.194E-02  2.816E-02 
   1.50000E+01  4.699E-02  3.094E-02 
   2.00000E+01  5.103E-02  3.216E-02 
".

(** ries/nonresonant/nist_xrmac/59.txt, verbatim. *)
Definition xrmac_59 : string := "   1.00000E-03  1.058E+04  1.054E+04 
   1.11454E-03  8.122E+03  8.091E+03 
   1.24220E-03  6.278E+03  6.254E+03 
M3 1.24220E-03  7.224E+03  7.196E+03 
   1.28892E-03  6.661E+03  6.635E+03 
   1.33740E-03  6.142E+03  6.118E+03 
M2 1.33740E-03  6.513E+03  6.487E+03 
   1.50000E-03  5.090E+03  5.069E+03 
   1.51100E-03  5.006E+03  4.986E+03 
M1 1.51100E-03  5.235E+03  5.214E+03 
   2.00000E-03  2.768E+03  2.755E+03 
   3.00000E-03  1.047E+03  1.038E+03 
   4.00000E-03  5.131E+02  5.061E+02 
   5.00000E-03  2.924E+02  2.865E+02 
   5.96430E-03  1.868E+02  1.816E+02 
L3 5.96430E-03  5.214E+02  4.802E+02 
   6.00000E-03  5.145E+02  4.739E+02 
   6.44040E-03  4.310E+02  3.984E+02 
L2 6.44040E-03  5.857E+02  5.333E+02 
   6.63467E-03  5.455E+02  4.976E+02 
   6.83480E-03  5.060E+02  4.625E+02 
L1 6.83480E-03  5.836E+02  5.317E+02 
   8.00000E-03  3.950E+02  3.634E+02 
   1.00000E-02  2.209E+02  2.052E+02 
   1.50000E-02  7.597E+01  7.094E+01 
   2.00000E-02  3.526E+01  3.267E+01 
   3.00000E-02  1.192E+01  1.072E+01 
   4.00000E-02  5.557E+00  4.803E+00 
   4.19906E-02  4.892E+00  4.192E+00 
K  4.19906E-02  2.518E+01  7.833E+00 
   5.00000E-02  1.599E+01  6.567E+00 
   6.00000E-02  9.977E+00  4.942E+00 
   8.00000E-02  4.664E+00  2.773E+00 
   1.00000E-01  2.588E+00  1.667E+00 
   1.50000E-01  9.180E-01  6.172E-01 
   2.00000E-01  4.687E-01  3.025E-01 
   3.00000E-01  2.126E-01  1.195E-01 
   4.00000E-01  1.389E-01  6.980E-02 
   5.00000E-01  1.071E-01  5.047E-02 
   6.00000E-01  8.976E-02  4.107E-02 
   8.00000E-01  7.105E-02  3.229E-02 
   1.00000E+00  6.070E-02  2.811E-02 
   1.25000E+00  5.268E-02  2.503E-02 
   1.50000E+00  4.779E-02  2.320E-02 
   2.00000E+00  4.244E-02  2.152E-02 
   3.00000E+00  3.858E-02  2.131E-02 
   4.00000E+00  3.774E-02  2.233E-02 
   5.00000E+00  3.800E-02  2.359E-02 
   6.00000E+00  3.870E-02  2.481E-02 
   8.00000E+00  4.067E-02  2.697E-02 
   1.00000E+01  4.288E-02  2.872E-02 
   1.50000E+01  4.809E-02  3.155E-02 
   2.00000E+01  5.226E-02  3.277E-02 
".

(** ries/nonresonant/nist_xrmac/60.txt, verbatim. *)
Definition xrmac_60 : string := "   1.00000E-03  6.627E+03  6.598E+03 
   1.00250E-03  6.806E+03  6.776E+03 
   1.00500E-03  6.949E+03  6.918E+03 
M4 1.00500E-03  8.554E+03  8.516E+03 
   1.14188E-03  7.579E+03  7.547E+03 
   1.29740E-03  5.933E+03  5.908E+03 
M3 1.29740E-03  6.833E+03  6.803E+03 
   1.34907E-03  6.264E+03  6.236E+03 
   1.40280E-03  5.744E+03  5.719E+03 
M2 1.40280E-03  6.093E+03  6.066E+03 
   1.50000E-03  5.273E+03  5.250E+03 
   1.57530E-03  4.738E+03  4.717E+03 
M1 1.57530E-03  4.951E+03  4.929E+03 
   2.00000E-03  2.878E+03  2.864E+03 
   3.00000E-03  1.093E+03  1.084E+03 
   4.00000E-03  5.366E+02  5.294E+02 
   5.00000E-03  3.061E+02  3.000E+02 
   6.00000E-03  1.927E+02  1.874E+02 
   6.20790E-03  1.767E+02  1.715E+02 
L3 6.20790E-03  4.892E+02  4.484E+02 
   6.45960E-03  4.487E+02  4.079E+02 
   6.72150E-03  4.013E+02  3.694E+02 
L2 6.72150E-03  5.456E+02  4.939E+02 
   6.92080E-03  5.135E+02  4.614E+02 
   7.12600E-03  4.723E+02  4.293E+02 
L1 7.12600E-03  5.448E+02  4.936E+02 
   8.00000E-03  4.094E+02  3.739E+02 
   1.00000E-02  2.300E+02  2.125E+02 
   1.50000E-02  7.925E+01  7.376E+01 
   2.00000E-02  3.684E+01  3.407E+01 
   3.00000E-02  1.247E+01  1.121E+01 
   4.00000E-02  5.809E+00  5.033E+00 
   4.35689E-02  4.642E+00  3.962E+00 
K  4.35689E-02  2.366E+01  7.296E+00 
   5.00000E-02  1.650E+01  6.418E+00 
   6.00000E-02  1.033E+01  4.928E+00 
   8.00000E-02  4.839E+00  2.815E+00 
   1.00000E-01  2.687E+00  1.706E+00 
   1.50000E-01  9.522E-01  6.376E-01 
   2.00000E-01  4.844E-01  3.133E-01 
   3.00000E-01  2.178E-01  1.236E-01 
   4.00000E-01  1.412E-01  7.177E-02 
   5.00000E-01  1.083E-01  5.157E-02 
   6.00000E-01  9.040E-02  4.174E-02 
   8.00000E-01  7.127E-02  3.258E-02 
   1.00000E+00  6.072E-02  2.823E-02 
   1.25000E+00  5.262E-02  2.505E-02 
   1.50000E+00  4.769E-02  2.318E-02 
   2.00000E+00  4.236E-02  2.148E-02 
   3.00000E+00  3.856E-02  2.129E-02 
   4.00000E+00  3.776E-02  2.233E-02 
   5.00000E+00  3.806E-02  2.360E-02 
   6.00000E+00  3.879E-02  2.483E-02 
   8.00000E+00  4.081E-02  2.701E-02 
   1.00000E+01  4.304E-02  2.876E-02 
   1.50000E+01  4.832E-02  3.159E-02 
   2.00000E+01  5.257E-02  3.283E-02 
".

(** ries/nonresonant/nist_xrmac/61.txt, verbatim. *)
Definition xrmac_61 : string := "   1.00000E-03  2.056E+03  2.046E+03 
   1.01336E-03  2.007E+03  1.997E+03 
   1.02690E-03  1.959E+03  1.949E+03 
M5 1.02690E-03  2.729E+03  2.715E+03 
   1.03913E-03  3.894E+03  3.874E+03 
   1.05150E-03  5.830E+03  5.801E+03 
M4 1.05150E-03  7.242E+03  7.205E+03 
   1.19448E-03  7.232E+03  7.196E+03 
   1.35690E-03  5.687E+03  5.660E+03 
M3 1.35690E-03  6.555E+03  6.524E+03 
   1.41299E-03  5.985E+03  5.956E+03 
   1.47140E-03  5.466E+03  5.439E+03 
M2 1.47140E-03  5.799E+03  5.770E+03 
   1.50000E-03  5.553E+03  5.526E+03 
   1.65300E-03  4.497E+03  4.474E+03 
M1 1.65300E-03  4.699E+03  4.676E+03 
   2.00000E-03  3.048E+03  3.031E+03 
   3.00000E-03  1.162E+03  1.152E+03 
   4.00000E-03  5.709E+02  5.633E+02 
   5.00000E-03  3.260E+02  3.196E+02 
   6.00000E-03  2.053E+02  1.998E+02 
   6.45930E-03  1.702E+02  1.649E+02 
L3 6.45930E-03  4.678E+02  4.267E+02 
   6.73036E-03  4.226E+02  3.864E+02 
   7.01280E-03  3.805E+02  3.487E+02 
L2 7.01280E-03  5.174E+02  4.657E+02 
   7.21737E-03  4.884E+02  4.359E+02 
   7.42790E-03  4.494E+02  4.062E+02 
L1 7.42790E-03  5.184E+02  4.669E+02 
   8.00000E-03  4.314E+02  3.908E+02 
   1.00000E-02  2.440E+02  2.240E+02 
   1.50000E-02  8.411E+01  7.799E+01 
   2.00000E-02  3.916E+01  3.614E+01 
   3.00000E-02  1.327E+01  1.193E+01 
   4.00000E-02  6.181E+00  5.366E+00 
   4.51840E-02  4.491E+00  3.816E+00 
K  4.51840E-02  2.265E+01  6.930E+00 
   5.00000E-02  1.735E+01  6.363E+00 
   6.00000E-02  1.087E+01  4.989E+00 
   8.00000E-02  5.107E+00  2.904E+00 
   1.00000E-01  2.840E+00  1.776E+00 
   1.50000E-01  1.005E+00  6.699E-01 
   2.00000E-01  5.098E-01  3.302E-01 
   3.00000E-01  2.273E-01  1.301E-01 
   4.00000E-01  1.462E-01  7.517E-02 
   5.00000E-01  1.115E-01  5.369E-02 
   6.00000E-01  9.276E-02  4.323E-02 
   8.00000E-01  7.280E-02  3.349E-02 
   1.00000E+00  6.188E-02  2.889E-02 
   1.25000E+00  5.350E-02  2.553E-02 
   1.50000E+00  4.849E-02  2.360E-02 
   2.00000E+00  4.308E-02  2.184E-02 
   3.00000E+00  3.925E-02  2.166E-02 
   4.00000E+00  3.849E-02  2.273E-02 
   5.00000E+00  3.882E-02  2.405E-02 
   6.00000E+00  3.959E-02  2.532E-02 
   8.00000E+00  4.169E-02  2.754E-02 
   1.00000E+01  4.401E-02  2.933E-02 
   1.50000E+01  4.946E-02  3.222E-02 
   2.00000E+01  5.380E-02  3.344E-02 
".

(** ries/nonresonant/nist_xrmac/62.txt, verbatim. *)
Definition xrmac_62 : string := "   1.00000E-03  2.107E+03  2.097E+03 
   1.03933E-03  1.963E+03  1.953E+03 
   1.08020E-03  1.827E+03  1.817E+03 
M5 1.08020E-03  2.635E+03  2.620E+03 
   1.09302E-03  3.837E+03  3.816E+03 
   1.10600E-03  5.613E+03  5.582E+03 
M4 1.10600E-03  6.852E+03  6.814E+03 
   1.25312E-03  6.641E+03  6.605E+03 
   1.41980E-03  5.262E+03  5.234E+03 
M3 1.41980E-03  6.072E+03  6.039E+03 
   1.50000E-03  5.358E+03  5.329E+03 
   1.54070E-03  5.046E+03  5.018E+03 
M2 1.54070E-03  5.355E+03  5.325E+03 
   1.62921E-03  4.740E+03  4.714E+03 
   1.72280E-03  4.189E+03  4.165E+03 
M1 1.72280E-03  4.376E+03  4.352E+03 
   2.00000E-03  3.120E+03  3.102E+03 
   3.00000E-03  1.193E+03  1.183E+03 
   4.00000E-03  5.873E+02  5.795E+02 
   5.00000E-03  3.356E+02  3.291E+02 
   6.00000E-03  2.115E+02  2.059E+02 
   6.71620E-03  1.587E+02  1.536E+02 
L3 6.71620E-03  4.334E+02  3.933E+02 
   7.00767E-03  3.898E+02  3.547E+02 
   7.31180E-03  3.496E+02  3.189E+02 
L2 7.31180E-03  4.756E+02  4.255E+02 
   7.52130E-03  4.501E+02  3.988E+02 
   7.73680E-03  4.141E+02  3.721E+02 
L1 7.73680E-03  4.777E+02  4.276E+02 
   8.00000E-03  4.401E+02  3.951E+02 
   1.00000E-02  2.499E+02  2.278E+02 
   1.50000E-02  8.633E+01  7.972E+01 
   2.00000E-02  4.025E+01  3.706E+01 
   3.00000E-02  1.365E+01  1.227E+01 
   4.00000E-02  6.362E+00  5.532E+00 
   4.68342E-02  4.208E+00  3.562E+00 
K  4.68342E-02  2.100E+01  6.378E+00 
   5.00000E-02  1.774E+01  6.094E+00 
   6.00000E-02  1.107E+01  4.872E+00 
   8.00000E-02  5.212E+00  2.893E+00 
   1.00000E-01  2.901E+00  1.786E+00 
   1.50000E-01  1.027E+00  6.806E-01 
   2.00000E-01  5.192E-01  3.366E-01 
   3.00000E-01  2.296E-01  1.326E-01 
   4.00000E-01  1.466E-01  7.620E-02 
   5.00000E-01  1.112E-01  5.411E-02 
   6.00000E-01  9.218E-02  4.334E-02 
   8.00000E-01  7.201E-02  3.333E-02 
   1.00000E+00  6.106E-02  2.862E-02 
   1.25000E+00  5.271E-02  2.522E-02 
   1.50000E+00  4.773E-02  2.325E-02 
   2.00000E+00  4.240E-02  2.150E-02 
   3.00000E+00  3.868E-02  2.133E-02 
   4.00000E+00  3.797E-02  2.241E-02 
   5.00000E+00  3.833E-02  2.372E-02 
   6.00000E+00  3.912E-02  2.498E-02 
   8.00000E+00  4.124E-02  2.719E-02 
   1.00000E+01  4.355E-02  2.896E-02 
   1.50000E+01  4.899E-02  3.180E-02 
   2.00000E+01  5.335E-02  3.302E-02 
".

(** ries/nonresonant/nist_xrmac/63.txt, verbatim. *)
Definition xrmac_63 : string := "   1.00000E-03  2.216E+03  2.206E+03 
   1.06344E-03  1.978E+03  1.968E+03 
   1.13090E-03  1.763E+03  1.753E+03 
M5 1.13090E-03  2.443E+03  2.428E+03 
   1.14565E-03  3.617E+03  3.595E+03 
   1.16060E-03  5.416E+03  5.382E+03 
M4 1.16060E-03  6.540E+03  6.498E+03 
   1.31087E-03  6.291E+03  6.253E+03 
   1.48060E-03  5.031E+03  5.001E+03 
M3 1.48060E-03  5.810E+03  5.774E+03 
   1.50000E-03  5.624E+03  5.590E+03 
   1.61390E-03  4.771E+03  4.742E+03 
M2 1.61390E-03  5.064E+03  5.034E+03 
   1.70441E-03  4.492E+03  4.465E+03 
   1.80000E-03  3.980E+03  3.955E+03 
M1 1.80000E-03  4.158E+03  4.132E+03 
   2.00000E-03  3.278E+03  3.258E+03 
   3.00000E-03  1.256E+03  1.245E+03 
   4.00000E-03  6.193E+02  6.111E+02 
   5.00000E-03  3.542E+02  3.474E+02 
   6.00000E-03  2.234E+02  2.175E+02 
   6.97690E-03  1.522E+02  1.471E+02 
L3 6.97690E-03  4.127E+02  3.725E+02 
   7.28997E-03  3.696E+02  3.346E+02 
   7.61710E-03  3.302E+02  2.998E+02 
L2 7.61710E-03  4.492E+02  3.993E+02 
   8.00000E-03  3.989E+02  3.560E+02 
   8.05200E-03  3.921E+02  3.502E+02 
L1 8.05200E-03  4.524E+02  4.024E+02 
   1.00000E-02  2.629E+02  2.378E+02 
   1.50000E-02  9.087E+01  8.352E+01 
   2.00000E-02  4.242E+01  3.895E+01 
   3.00000E-02  1.441E+01  1.295E+01 
   4.00000E-02  6.716E+00  5.848E+00 
   4.85190E-02  4.051E+00  3.414E+00 
K  4.85190E-02  2.001E+01  6.036E+00 
   5.00000E-02  1.850E+01  5.927E+00 
   6.00000E-02  1.155E+01  4.863E+00 
   8.00000E-02  5.455E+00  2.953E+00 
   1.00000E-01  3.040E+00  1.841E+00 
   1.50000E-01  1.076E+00  7.088E-01 
   2.00000E-01  5.425E-01  3.518E-01 
   3.00000E-01  2.380E-01  1.385E-01 
   4.00000E-01  1.509E-01  7.927E-02 
   5.00000E-01  1.139E-01  5.598E-02 
   6.00000E-01  9.404E-02  4.462E-02 
   8.00000E-01  7.312E-02  3.406E-02 
   1.00000E+00  6.186E-02  2.912E-02 
   1.25000E+00  5.331E-02  2.557E-02 
   1.50000E+00  4.822E-02  2.353E-02 
   2.00000E+00  4.285E-02  2.173E-02 
   3.00000E+00  3.913E-02  2.158E-02 
   4.00000E+00  3.845E-02  2.269E-02 
   5.00000E+00  3.885E-02  2.404E-02 
   6.00000E+00  3.967E-02  2.532E-02 
   8.00000E+00  4.185E-02  2.758E-02 
   1.00000E+01  4.422E-02  2.938E-02 
   1.50000E+01  4.980E-02  3.228E-02 
   2.00000E+01  5.423E-02  3.351E-02 
".

(** ries/nonresonant/nist_xrmac/64.txt, verbatim. *)
Definition xrmac_64 : string := "   1.00000E-03  2.291E+03  2.281E+03 
   1.08867E-03  1.960E+03  1.949E+03 
   1.18520E-03  1.668E+03  1.658E+03 
M5 1.18520E-03  1.931E+03  1.919E+03 
   1.20109E-03  2.527E+03  2.510E+03 
   1.21720E-03  3.961E+03  3.934E+03 
M4 1.21720E-03  4.764E+03  4.731E+03 
   1.50000E-03  5.041E+03  5.008E+03 
   1.54400E-03  4.701E+03  4.670E+03 
M3 1.54400E-03  5.432E+03  5.395E+03 
   1.61454E-03  4.900E+03  4.867E+03 
   1.68830E-03  4.421E+03  4.391E+03 
M2 1.68830E-03  4.694E+03  4.662E+03 
   1.78195E-03  4.164E+03  4.136E+03 
   1.88080E-03  3.691E+03  3.666E+03 
M1 1.88080E-03  3.854E+03  3.829E+03 
   2.00000E-03  3.360E+03  3.337E+03 
   3.00000E-03  1.292E+03  1.280E+03 
   4.00000E-03  6.380E+02  6.296E+02 
   5.00000E-03  3.653E+02  3.584E+02 
   6.00000E-03  2.305E+02  2.246E+02 
   7.24280E-03  1.429E+02  1.379E+02 
L3 7.24280E-03  3.844E+02  3.452E+02 
   7.57876E-03  3.427E+02  3.088E+02 
   7.93030E-03  3.049E+02  2.755E+02 
L2 7.93030E-03  4.149E+02  3.665E+02 
   8.00000E-03  4.068E+02  3.595E+02 
   8.37560E-03  3.631E+02  3.223E+02 
L1 8.37560E-03  4.190E+02  3.702E+02 
   1.00000E-02  2.693E+02  2.416E+02 
   1.50000E-02  9.335E+01  8.538E+01 
   2.00000E-02  4.363E+01  3.994E+01 
   3.00000E-02  1.484E+01  1.333E+01 
   4.00000E-02  6.920E+00  6.033E+00 
   5.00000E-02  3.859E+00  3.242E+00 
   5.02391E-02  3.812E+00  3.199E+00 
K  5.02391E-02  1.864E+01  5.585E+00 
   6.00000E-02  1.175E+01  4.722E+00 
   8.00000E-02  5.573E+00  2.937E+00 
   1.00000E-01  3.109E+00  1.849E+00 
   1.50000E-01  1.100E+00  7.197E-01 
   2.00000E-01  5.534E-01  3.584E-01 
   3.00000E-01  2.410E-01  1.409E-01 
   4.00000E-01  1.517E-01  8.039E-02 
   5.00000E-01  1.139E-01  5.650E-02 
   6.00000E-01  9.371E-02  4.483E-02 
   8.00000E-01  7.252E-02  3.399E-02 
   1.00000E+00  6.120E-02  2.893E-02 
   1.25000E+00  5.262E-02  2.530E-02 
   1.50000E+00  4.759E-02  2.325E-02 
   2.00000E+00  4.228E-02  2.144E-02 
   3.00000E+00  3.865E-02  2.129E-02 
   4.00000E+00  3.802E-02  2.241E-02 
   5.00000E+00  3.844E-02  2.374E-02 
   6.00000E+00  3.928E-02  2.502E-02 
   8.00000E+00  4.147E-02  2.725E-02 
   1.00000E+01  4.384E-02  2.902E-02 
   1.50000E+01  4.943E-02  3.188E-02 
   2.00000E+01  5.385E-02  3.306E-02 
".

(** ries/nonresonant/nist_xrmac/65.txt, verbatim. *)
Definition xrmac_65 : string := "   1.00000E-03  2.396E+03  2.386E+03 
   1.11409E-03  1.956E+03  1.946E+03 
   1.24120E-03  1.591E+03  1.581E+03 
M5 1.24120E-03  2.337E+03  2.321E+03 
   1.25799E-03  3.515E+03  3.488E+03 
   1.27500E-03  5.023E+03  4.984E+03 
M4 1.27500E-03  5.928E+03  5.881E+03 
   1.50000E-03  5.314E+03  5.274E+03 
   1.61130E-03  4.464E+03  4.431E+03 
M3 1.61130E-03  5.164E+03  5.125E+03 
   1.68769E-03  4.635E+03  4.601E+03 
   1.76770E-03  4.166E+03  4.135E+03 
M2 1.76770E-03  4.424E+03  4.391E+03 
   1.86493E-03  3.929E+03  3.899E+03 
   1.96750E-03  3.482E+03  3.456E+03 
M1 1.96750E-03  3.638E+03  3.611E+03 
   2.00000E-03  3.507E+03  3.481E+03 
   3.00000E-03  1.354E+03  1.342E+03 
   4.00000E-03  6.697E+02  6.607E+02 
   5.00000E-03  3.838E+02  3.765E+02 
   6.00000E-03  2.423E+02  2.362E+02 
   7.51400E-03  1.368E+02  1.318E+02 
L3 7.51400E-03  3.658E+02  3.266E+02 
   8.00000E-03  3.133E+02  2.810E+02 
   8.25160E-03  2.881E+02  2.590E+02 
L2 8.25160E-03  3.925E+02  3.443E+02 
   8.47673E-03  3.684E+02  3.239E+02 
   8.70800E-03  3.441E+02  3.033E+02 
L1 8.70800E-03  3.970E+02  3.483E+02 
   1.00000E-02  2.815E+02  2.502E+02 
   1.50000E-02  9.802E+01  8.914E+01 
   2.00000E-02  4.588E+01  4.184E+01 
   3.00000E-02  1.563E+01  1.402E+01 
   4.00000E-02  7.288E+00  6.357E+00 
   5.00000E-02  4.064E+00  3.422E+00 
   5.19957E-02  3.672E+00  3.068E+00 
K  5.19957E-02  1.777E+01  5.291E+00 
   6.00000E-02  1.223E+01  4.673E+00 
   8.00000E-02  5.826E+00  2.986E+00 
   1.00000E-01  3.253E+00  1.899E+00 
   1.50000E-01  1.151E+00  7.474E-01 
   2.00000E-01  5.775E-01  3.736E-01 
   3.00000E-01  2.498E-01  1.470E-01 
   4.00000E-01  1.562E-01  8.354E-02 
   5.00000E-01  1.167E-01  5.842E-02 
   6.00000E-01  9.562E-02  4.614E-02 
   8.00000E-01  7.365E-02  3.474E-02 
   1.00000E+00  6.196E-02  2.942E-02 
   1.25000E+00  5.321E-02  2.565E-02 
   1.50000E+00  4.808E-02  2.352E-02 
   2.00000E+00  4.272E-02  2.166E-02 
   3.00000E+00  3.908E-02  2.151E-02 
   4.00000E+00  3.848E-02  2.266E-02 
   5.00000E+00  3.894E-02  2.402E-02 
   6.00000E+00  3.981E-02  2.532E-02 
   8.00000E+00  4.206E-02  2.758E-02 
   1.00000E+01  4.449E-02  2.937E-02 
   1.50000E+01  5.017E-02  3.224E-02 
   2.00000E+01  5.470E-02  3.343E-02 
".

(** ries/nonresonant/nist_xrmac/66.txt, verbatim. *)
Definition xrmac_66 : string := "   1.00000E-03  2.494E+03  2.483E+03 
   1.13794E-03  1.953E+03  1.943E+03 
   1.29490E-03  1.521E+03  1.511E+03 
M5 1.29490E-03  2.173E+03  2.156E+03 
   1.31356E-03  3.293E+03  3.265E+03 
   1.33250E-03  4.745E+03  4.704E+03 
M4 1.33250E-03  5.551E+03  5.502E+03 
   1.50000E-03  5.550E+03  5.503E+03 
   1.67560E-03  4.229E+03  4.194E+03 
M3 1.67560E-03  4.896E+03  4.855E+03 
   1.75674E-03  4.382E+03  4.345E+03 
   1.84180E-03  3.924E+03  3.892E+03 
M2 1.84180E-03  4.168E+03  4.133E+03 
   2.00000E-03  3.467E+03  3.438E+03 
   2.04680E-03  3.286E+03  3.259E+03 
M1 2.04680E-03  3.433E+03  3.404E+03 
   3.00000E-03  1.405E+03  1.391E+03 
   4.00000E-03  6.953E+02  6.858E+02 
   5.00000E-03  3.988E+02  3.913E+02 
   6.00000E-03  2.520E+02  2.456E+02 
   7.79010E-03  1.299E+02  1.249E+02 
L3 7.79010E-03  3.437E+02  3.051E+02 
   8.00000E-03  3.269E+02  2.906E+02 
   8.58060E-03  2.695E+02  2.410E+02 
L2 8.58060E-03  3.672E+02  3.198E+02 
   8.81013E-03  3.452E+02  3.013E+02 
   9.04580E-03  3.228E+02  2.826E+02 
L1 9.04580E-03  3.725E+02  3.245E+02 
   1.00000E-02  2.902E+02  2.554E+02 
   1.50000E-02  1.016E+02  9.187E+01 
   2.00000E-02  4.765E+01  4.328E+01 
   3.00000E-02  1.625E+01  1.456E+01 
   4.00000E-02  7.582E+00  6.616E+00 
   5.00000E-02  4.227E+00  3.566E+00 
   5.37885E-02  3.500E+00  2.911E+00 
K  5.37885E-02  1.676E+01  4.961E+00 
   6.00000E-02  1.259E+01  4.554E+00 
   8.00000E-02  6.012E+00  2.993E+00 
   1.00000E-01  3.360E+00  1.925E+00 
   1.50000E-01  1.189E+00  7.660E-01 
   2.00000E-01  5.953E-01  3.846E-01 
   3.00000E-01  2.558E-01  1.514E-01 
   4.00000E-01  1.590E-01  8.578E-02 
   5.00000E-01  1.181E-01  5.971E-02 
   6.00000E-01  9.644E-02  4.694E-02 
   8.00000E-01  7.393E-02  3.509E-02 
   1.00000E+00  6.204E-02  2.958E-02 
   1.25000E+00  5.318E-02  2.570E-02 
   1.50000E+00  4.801E-02  2.352E-02 
   2.00000E+00  4.265E-02  2.163E-02 
   3.00000E+00  3.905E-02  2.149E-02 
   4.00000E+00  3.848E-02  2.264E-02 
   5.00000E+00  3.896E-02  2.401E-02 
   6.00000E+00  3.986E-02  2.532E-02 
   8.00000E+00  4.214E-02  2.758E-02 
   1.00000E+01  4.460E-02  2.938E-02 
   1.50000E+01  5.033E-02  3.223E-02 
   2.00000E+01  5.492E-02  3.342E-02 
".

(** ries/nonresonant/nist_xrmac/67.txt, verbatim. *)
Definition xrmac_67 : string := "   1.00000E-03  2.616E+03  2.605E+03 
   1.16250E-03  1.961E+03  1.951E+03 
   1.35140E-03  1.462E+03  1.452E+03 
M5 1.35140E-03  2.108E+03  2.091E+03 
   1.37130E-03  3.193E+03  3.164E+03 
   1.39150E-03  4.528E+03  4.485E+03 
M4 1.39150E-03  5.239E+03  5.187E+03 
   1.50000E-03  5.847E+03  5.790E+03 
   1.74120E-03  4.038E+03  4.001E+03 
M3 1.74120E-03  4.677E+03  4.633E+03 
   1.82975E-03  4.161E+03  4.122E+03 
   1.92280E-03  3.703E+03  3.669E+03 
M2 1.92280E-03  3.934E+03  3.898E+03 
   2.00000E-03  3.590E+03  3.558E+03 
   2.12830E-03  3.127E+03  3.099E+03 
M1 2.12830E-03  3.266E+03  3.236E+03 
   3.00000E-03  1.465E+03  1.450E+03 
   4.00000E-03  7.264E+02  7.164E+02 
   5.00000E-03  4.170E+02  4.091E+02 
   6.00000E-03  2.636E+02  2.570E+02 
   8.00000E-03  1.271E+02  1.220E+02 
   8.07110E-03  1.242E+02  1.192E+02 
L3 8.07110E-03  3.283E+02  2.897E+02 
   8.48389E-03  2.889E+02  2.560E+02 
   8.91780E-03  2.540E+02  2.260E+02 
L2 8.91780E-03  3.463E+02  2.994E+02 
   9.15290E-03  3.259E+02  2.825E+02 
   9.39420E-03  3.051E+02  2.652E+02 
L1 9.39420E-03  3.520E+02  3.044E+02 
   1.00000E-02  3.012E+02  2.623E+02 
   1.50000E-02  1.060E+02  9.521E+01 
   2.00000E-02  4.980E+01  4.504E+01 
   3.00000E-02  1.701E+01  1.521E+01 
   4.00000E-02  7.940E+00  6.928E+00 
   5.00000E-02  4.425E+00  3.740E+00 
   5.56177E-02  3.361E+00  2.783E+00 
K  5.56177E-02  1.592E+01  4.697E+00 
   6.00000E-02  1.309E+01  4.466E+00 
   8.00000E-02  6.244E+00  3.015E+00 
   1.00000E-01  3.492E+00  1.961E+00 
   1.50000E-01  1.236E+00  7.901E-01 
   2.00000E-01  6.178E-01  3.984E-01 
   3.00000E-01  2.639E-01  1.570E-01 
   4.00000E-01  1.629E-01  8.869E-02 
   5.00000E-01  1.205E-01  6.145E-02 
   6.00000E-01  9.800E-02  4.811E-02 
   8.00000E-01  7.477E-02  3.571E-02 
   1.00000E+00  6.257E-02  2.997E-02 
   1.25000E+00  5.351E-02  2.593E-02 
   1.50000E+00  4.828E-02  2.369E-02 
   2.00000E+00  4.289E-02  2.175E-02 
   3.00000E+00  3.930E-02  2.161E-02 
   4.00000E+00  3.877E-02  2.279E-02 
   5.00000E+00  3.927E-02  2.417E-02 
   6.00000E+00  4.020E-02  2.549E-02 
   8.00000E+00  4.253E-02  2.777E-02 
   1.00000E+01  4.504E-02  2.958E-02 
   1.50000E+01  5.088E-02  3.245E-02 
   2.00000E+01  5.551E-02  3.363E-02 
".

(** ries/nonresonant/nist_xrmac/68.txt, verbatim. *)
Definition xrmac_68 : string := "   1.00000E-03  2.748E+03  2.737E+03 
   1.18714E-03  1.978E+03  1.967E+03 
   1.40930E-03  1.408E+03  1.397E+03 
M5 1.40930E-03  2.069E+03  2.051E+03 
   1.43113E-03  3.170E+03  3.138E+03 
   1.45330E-03  4.339E+03  4.293E+03 
M4 1.45330E-03  4.952E+03  4.898E+03 
   1.50000E-03  6.069E+03  6.003E+03 
   1.81180E-03  3.841E+03  3.802E+03 
M3 1.81180E-03  4.452E+03  4.406E+03 
   2.00000E-03  3.523E+03  3.488E+03 
   2.00580E-03  3.499E+03  3.464E+03 
M2 2.00580E-03  3.717E+03  3.680E+03 
   2.10376E-03  3.337E+03  3.304E+03 
   2.20650E-03  2.995E+03  2.965E+03 
M1 2.20650E-03  3.127E+03  3.096E+03 
   3.00000E-03  1.526E+03  1.510E+03 
   4.00000E-03  7.587E+02  7.480E+02 
   5.00000E-03  4.359E+02  4.276E+02 
   6.00000E-03  2.757E+02  2.688E+02 
   8.00000E-03  1.330E+02  1.278E+02 
   8.35790E-03  1.190E+02  1.140E+02 
L3 8.35790E-03  3.126E+02  2.741E+02 
   8.79944E-03  2.799E+02  2.412E+02 
   9.26430E-03  2.397E+02  2.121E+02 
L2 9.26430E-03  3.271E+02  2.806E+02 
   9.50468E-03  3.080E+02  2.650E+02 
   9.75130E-03  2.886E+02  2.491E+02 
L1 9.75130E-03  3.330E+02  2.858E+02 
   1.00000E-02  3.129E+02  2.694E+02 
   1.50000E-02  1.106E+02  9.860E+01 
   2.00000E-02  5.204E+01  4.683E+01 
   3.00000E-02  1.780E+01  1.588E+01 
   4.00000E-02  8.315E+00  7.253E+00 
   5.00000E-02  4.634E+00  3.922E+00 
   5.74855E-02  3.232E+00  2.664E+00 
K  5.74855E-02  1.514E+01  4.442E+00 
   6.00000E-02  1.362E+01  4.349E+00 
   8.00000E-02  6.478E+00  3.028E+00 
   1.00000E-01  3.628E+00  1.995E+00 
   1.50000E-01  1.285E+00  8.141E-01 
   2.00000E-01  6.415E-01  4.125E-01 
   3.00000E-01  2.724E-01  1.629E-01 
   4.00000E-01  1.672E-01  9.173E-02 
   5.00000E-01  1.230E-01  6.329E-02 
   6.00000E-01  9.968E-02  4.934E-02 
   8.00000E-01  7.569E-02  3.638E-02 
   1.00000E+00  6.317E-02  3.040E-02 
   1.25000E+00  5.392E-02  2.620E-02 
   1.50000E+00  4.860E-02  2.388E-02 
   2.00000E+00  4.317E-02  2.190E-02 
   3.00000E+00  3.958E-02  2.176E-02 
   4.00000E+00  3.907E-02  2.295E-02 
   5.00000E+00  3.961E-02  2.435E-02 
   6.00000E+00  4.056E-02  2.569E-02 
   8.00000E+00  4.294E-02  2.799E-02 
   1.00000E+01  4.549E-02  2.981E-02 
   1.50000E+01  5.141E-02  3.268E-02 
   2.00000E+01  5.613E-02  3.387E-02 
".

(** ries/nonresonant/nist_xrmac/69.txt, verbatim. *)
Definition xrmac_69 : string := "   1.00000E-03  2.899E+03  2.888E+03 
   1.21149E-03  1.995E+03  1.984E+03 
   1.46770E-03  1.362E+03  1.352E+03 
M5 1.46770E-03  1.919E+03  1.901E+03 
   1.50000E-03  3.937E+03  3.892E+03 
   1.51460E-03  4.145E+03  4.098E+03 
M4 1.51460E-03  4.830E+03  4.773E+03 
   1.68946E-03  4.446E+03  4.395E+03 
   1.88450E-03  3.668E+03  3.627E+03 
M3 1.88450E-03  4.254E+03  4.206E+03 
   2.00000E-03  3.686E+03  3.646E+03 
   2.08980E-03  3.326E+03  3.290E+03 
M2 2.08980E-03  3.534E+03  3.495E+03 
   2.19562E-03  3.160E+03  3.125E+03 
   2.30680E-03  2.821E+03  2.791E+03 
M1 2.30680E-03  2.945E+03  2.914E+03 
   3.00000E-03  1.594E+03  1.576E+03 
   4.00000E-03  7.946E+02  7.831E+02 
   5.00000E-03  4.569E+02  4.482E+02 
   6.00000E-03  2.892E+02  2.820E+02 
   8.00000E-03  1.397E+02  1.342E+02 
   8.64800E-03  1.146E+02  1.096E+02 
L3 8.64800E-03  2.991E+02  2.606E+02 
   9.11959E-03  2.609E+02  2.284E+02 
   9.61690E-03  2.274E+02  2.001E+02 
L2 9.61690E-03  3.101E+02  2.640E+02 
   1.00000E-02  2.830E+02  2.420E+02 
   1.01157E-02  2.745E+02  2.351E+02 
L1 1.01157E-02  3.167E+02  2.697E+02 
   1.50000E-02  1.157E+02  1.023E+02 
   2.00000E-02  5.453E+01  4.882E+01 
   3.00000E-02  1.868E+01  1.663E+01 
   4.00000E-02  8.735E+00  7.615E+00 
   5.00000E-02  4.867E+00  4.124E+00 
   5.93896E-02  3.122E+00  2.562E+00 
K  5.93896E-02  1.200E+01  4.721E+00 
   6.00000E-02  1.409E+01  4.203E+00 
   8.00000E-02  6.741E+00  3.044E+00 
   1.00000E-01  3.780E+00  2.033E+00 
   1.50000E-01  1.340E+00  8.410E-01 
   2.00000E-01  6.682E-01  4.283E-01 
   3.00000E-01  2.822E-01  1.695E-01 
   4.00000E-01  1.722E-01  9.522E-02 
   5.00000E-01  1.261E-01  6.544E-02 
   6.00000E-01  1.018E-01  5.081E-02 
   8.00000E-01  7.693E-02  3.721E-02 
   1.00000E+00  6.404E-02  3.095E-02 
   1.25000E+00  5.455E-02  2.658E-02 
   1.50000E+00  4.912E-02  2.417E-02 
   2.00000E+00  4.362E-02  2.214E-02 
   3.00000E+00  4.002E-02  2.199E-02 
   4.00000E+00  3.954E-02  2.321E-02 
   5.00000E+00  4.010E-02  2.463E-02 
   6.00000E+00  4.108E-02  2.598E-02 
   8.00000E+00  4.352E-02  2.832E-02 
   1.00000E+01  4.612E-02  3.016E-02 
   1.50000E+01  5.216E-02  3.305E-02 
   2.00000E+01  5.698E-02  3.424E-02 
".

(** ries/nonresonant/nist_xrmac/70.txt, verbatim. *)
Definition xrmac_70 : string := "   1.00000E-03  3.017E+03  3.006E+03 
   1.50000E-03  1.350E+03  1.340E+03 
   1.52780E-03  1.300E+03  1.289E+03 
M5 1.52780E-03  1.965E+03  1.944E+03 
   1.55186E-03  2.949E+03  2.914E+03 
   1.57630E-03  3.908E+03  3.859E+03 
M4 1.57630E-03  4.540E+03  4.482E+03 
   1.75313E-03  4.200E+03  4.146E+03 
   1.94980E-03  3.495E+03  3.453E+03 
M3 1.94980E-03  4.054E+03  4.004E+03 
   2.00000E-03  3.797E+03  3.751E+03 
   2.17300E-03  3.128E+03  3.091E+03 
M2 2.17300E-03  3.323E+03  3.284E+03 
   2.28278E-03  2.970E+03  2.935E+03 
   2.39810E-03  2.652E+03  2.621E+03 
M1 2.39810E-03  2.769E+03  2.737E+03 
   3.00000E-03  1.640E+03  1.620E+03 
   4.00000E-03  8.193E+02  8.072E+02 
   5.00000E-03  4.717E+02  4.626E+02 
   6.00000E-03  2.988E+02  2.913E+02 
   8.00000E-03  1.444E+02  1.389E+02 
   8.94360E-03  1.088E+02  1.039E+02 
L3 8.94360E-03  2.824E+02  2.444E+02 
   9.44675E-03  2.511E+02  2.134E+02 
   9.97820E-03  2.128E+02  1.862E+02 
L2 9.97820E-03  2.906E+02  2.455E+02 
   1.00000E-02  2.893E+02  2.444E+02 
   1.04864E-02  2.577E+02  2.189E+02 
L1 1.04864E-02  2.973E+02  2.512E+02 
   1.50000E-02  1.193E+02  1.047E+02 
   2.00000E-02  5.628E+01  5.012E+01 
   3.00000E-02  1.932E+01  1.716E+01 
   4.00000E-02  9.040E+00  7.875E+00 
   5.00000E-02  5.038E+00  4.273E+00 
   6.00000E-02  3.147E+00  2.584E+00 
   6.13323E-02  2.975E+00  2.432E+00 
K  6.13323E-02  1.365E+01  3.964E+00 
   8.00000E-02  6.909E+00  3.008E+00 
   1.00000E-01  3.881E+00  2.038E+00 
   1.50000E-01  1.378E+00  8.554E-01 
   2.00000E-01  6.860E-01  4.381E-01 
   3.00000E-01  2.882E-01  1.737E-01 
   4.00000E-01  1.749E-01  9.741E-02 
   5.00000E-01  1.274E-01  6.671E-02 
   6.00000E-01  1.025E-01  5.159E-02 
   8.00000E-01  7.710E-02  3.754E-02 
   1.00000E+00  6.397E-02  3.107E-02 
   1.25000E+00  5.439E-02  2.658E-02 
   1.50000E+00  4.895E-02  2.413E-02 
   2.00000E+00  4.347E-02  2.208E-02 
   3.00000E+00  3.989E-02  2.191E-02 
   4.00000E+00  3.944E-02  2.314E-02 
   5.00000E+00  4.002E-02  2.457E-02 
   6.00000E+00  4.101E-02  2.593E-02 
   8.00000E+00  4.347E-02  2.826E-02 
   1.00000E+01  4.609E-02  3.010E-02 
   1.50000E+01  5.218E-02  3.302E-02 
   2.00000E+01  5.700E-02  3.419E-02 
".

(** ries/nonresonant/nist_xrmac/71.txt, verbatim. *)
Definition xrmac_71 : string := "   1.00000E-03  3.187E+03  3.175E+03 
   1.50000E-03  1.424E+03  1.413E+03 
   1.58850E-03  1.264E+03  1.253E+03 
M5 1.58850E-03  1.597E+03  1.581E+03 
   1.61375E-03  2.302E+03  2.273E+03 
   1.63940E-03  3.442E+03  3.396E+03 
M4 1.63940E-03  3.935E+03  3.881E+03 
   2.00000E-03  3.452E+03  3.406E+03 
   2.02360E-03  3.352E+03  3.307E+03 
M3 2.02360E-03  3.890E+03  3.838E+03 
   2.14019E-03  3.397E+03  3.352E+03 
   2.26350E-03  2.969E+03  2.931E+03 
M2 2.26350E-03  3.155E+03  3.115E+03 
   2.37462E-03  2.826E+03  2.790E+03 
   2.49120E-03  2.531E+03  2.499E+03 
M1 2.49120E-03  2.640E+03  2.607E+03 
   3.00000E-03  1.710E+03  1.688E+03 
   4.00000E-03  8.560E+02  8.430E+02 
   5.00000E-03  4.934E+02  4.839E+02 
   6.00000E-03  3.129E+02  3.051E+02 
   8.00000E-03  1.513E+02  1.456E+02 
   9.24410E-03  1.049E+02  9.994E+01 
L3 9.24410E-03  2.703E+02  2.324E+02 
   1.00000E-02  2.211E+02  1.916E+02 
   1.03486E-02  2.019E+02  1.756E+02 
L2 1.03486E-02  2.757E+02  2.310E+02 
   1.06063E-02  2.676E+02  2.190E+02 
   1.08704E-02  2.450E+02  2.065E+02 
L1 1.08704E-02  2.826E+02  2.369E+02 
   1.50000E-02  1.247E+02  1.084E+02 
   2.00000E-02  5.881E+01  5.206E+01 
   3.00000E-02  2.023E+01  1.791E+01 
   4.00000E-02  9.472E+00  8.242E+00 
   5.00000E-02  5.279E+00  4.480E+00 
   6.00000E-02  3.297E+00  2.712E+00 
   6.33138E-02  2.874E+00  2.339E+00 
K  6.33138E-02  1.305E+01  3.770E+00 
   8.00000E-02  7.161E+00  3.000E+00 
   1.00000E-01  4.033E+00  2.067E+00 
   1.50000E-01  1.433E+00  8.805E-01 
   2.00000E-01  7.130E-01  4.534E-01 
   3.00000E-01  2.981E-01  1.803E-01 
   4.00000E-01  1.799E-01  1.009E-01 
   5.00000E-01  1.305E-01  6.886E-02 
   6.00000E-01  1.046E-01  5.306E-02 
   8.00000E-01  7.829E-02  3.836E-02 
   1.00000E+00  6.478E-02  3.161E-02 
   1.25000E+00  5.496E-02  2.695E-02 
   1.50000E+00  4.941E-02  2.441E-02 
   2.00000E+00  4.385E-02  2.228E-02 
   3.00000E+00  4.028E-02  2.212E-02 
   4.00000E+00  3.985E-02  2.337E-02 
   5.00000E+00  4.045E-02  2.481E-02 
   6.00000E+00  4.147E-02  2.618E-02 
   8.00000E+00  4.398E-02  2.853E-02 
   1.00000E+01  4.664E-02  3.038E-02 
   1.50000E+01  5.282E-02  3.329E-02 
   2.00000E+01  5.773E-02  3.446E-02 
".

(** ries/nonresonant/nist_xrmac/72.txt, verbatim. *)
Definition xrmac_72 : string := "   1.00000E-03  3.335E+03  3.324E+03 
   1.50000E-03  1.489E+03  1.478E+03 
   1.66170E-03  1.203E+03  1.192E+03 
M5 1.66170E-03  1.505E+03  1.489E+03 
   1.68883E-03  2.189E+03  2.160E+03 
   1.71640E-03  3.273E+03  3.225E+03 
M4 1.71640E-03  3.682E+03  3.628E+03 
   2.00000E-03  3.598E+03  3.546E+03 
   2.10760E-03  3.152E+03  3.108E+03 
M3 2.10760E-03  3.659E+03  3.607E+03 
   2.23278E-03  3.182E+03  3.137E+03 
   2.36540E-03  2.769E+03  2.731E+03 
M2 2.36540E-03  2.943E+03  2.903E+03 
   2.48036E-03  2.637E+03  2.601E+03 
   2.60090E-03  2.363E+03  2.331E+03 
M1 2.60090E-03  2.465E+03  2.432E+03 
   3.00000E-03  1.768E+03  1.745E+03 
   4.00000E-03  8.859E+02  8.720E+02 
   5.00000E-03  5.113E+02  5.013E+02 
   6.00000E-03  3.244E+02  3.164E+02 
   8.00000E-03  1.571E+02  1.512E+02 
   9.56070E-03  9.997E+01  9.510E+01 
L3 9.56070E-03  2.557E+02  2.184E+02 
   1.00000E-02  2.301E+02  1.975E+02 
   1.07394E-02  1.894E+02  1.639E+02 
L2 1.07394E-02  2.589E+02  2.151E+02 
   1.10018E-02  2.522E+02  2.042E+02 
   1.12707E-02  2.306E+02  1.928E+02 
L1 1.12707E-02  2.659E+02  2.212E+02 
   1.50000E-02  1.290E+02  1.111E+02 
   2.00000E-02  6.087E+01  5.353E+01 
   3.00000E-02  2.098E+01  1.851E+01 
   4.00000E-02  9.828E+00  8.542E+00 
   5.00000E-02  5.478E+00  4.651E+00 
   6.00000E-02  3.420E+00  2.820E+00 
   6.53508E-02  2.751E+00  2.228E+00 
K  6.53508E-02  1.237E+01  3.557E+00 
   8.00000E-02  7.352E+00  2.958E+00 
   1.00000E-01  4.154E+00  2.075E+00 
   1.50000E-01  1.477E+00  8.973E-01 
   2.00000E-01  7.339E-01  4.645E-01 
   3.00000E-01  3.054E-01  1.853E-01 
   4.00000E-01  1.834E-01  1.035E-01 
   5.00000E-01  1.324E-01  7.044E-02 
   6.00000E-01  1.058E-01  5.409E-02 
   8.00000E-01  7.880E-02  3.886E-02 
   1.00000E+00  6.502E-02  3.188E-02 
   1.25000E+00  5.505E-02  2.708E-02 
   1.50000E+00  4.944E-02  2.447E-02 
   2.00000E+00  4.387E-02  2.230E-02 
   3.00000E+00  4.030E-02  2.212E-02 
   4.00000E+00  3.989E-02  2.338E-02 
   5.00000E+00  4.052E-02  2.483E-02 
   6.00000E+00  4.155E-02  2.620E-02 
   8.00000E+00  4.409E-02  2.855E-02 
   1.00000E+01  4.677E-02  3.040E-02 
   1.50000E+01  5.301E-02  3.330E-02 
   2.00000E+01  5.796E-02  3.445E-02 
".

(** ries/nonresonant/nist_xrmac/73.txt, verbatim. *)
Definition xrmac_73 : string := "   1.00000E-03  3.510E+03  3.498E+03 
   1.50000E-03  1.566E+03  1.555E+03 
   1.73510E-03  1.154E+03  1.144E+03 
M5 1.73510E-03  1.417E+03  1.401E+03 
   1.76391E-03  2.053E+03  2.024E+03 
   1.79320E-03  3.082E+03  3.034E+03 
M4 1.79320E-03  3.421E+03  3.367E+03 
   2.00000E-03  3.771E+03  3.711E+03 
   2.19400E-03  2.985E+03  2.939E+03 
M3 2.19400E-03  3.464E+03  3.411E+03 
   2.32730E-03  3.003E+03  2.957E+03 
   2.46870E-03  2.604E+03  2.566E+03 
M2 2.46870E-03  2.768E+03  2.727E+03 
   2.58558E-03  2.486E+03  2.449E+03 
   2.70800E-03  2.233E+03  2.201E+03 
M1 2.70800E-03  2.329E+03  2.296E+03 
   3.00000E-03  1.838E+03  1.812E+03 
   4.00000E-03  9.222E+02  9.073E+02 
   5.00000E-03  5.328E+02  5.223E+02 
   6.00000E-03  3.382E+02  3.299E+02 
   8.00000E-03  1.639E+02  1.579E+02 
   9.88110E-03  9.599E+01  9.117E+01 
L3 9.88110E-03  2.443E+02  2.073E+02 
   1.00000E-02  2.379E+02  2.021E+02 
   1.11361E-02  1.791E+02  1.540E+02 
L2 1.11361E-02  2.449E+02  2.018E+02 
   1.14055E-02  2.393E+02  1.917E+02 
   1.16815E-02  2.182E+02  1.811E+02 
L1 1.16815E-02  2.518E+02  2.077E+02 
   1.50000E-02  1.340E+02  1.143E+02 
   2.00000E-02  6.334E+01  5.532E+01 
   3.00000E-02  2.187E+01  1.923E+01 
   4.00000E-02  1.025E+01  8.899E+00 
   5.00000E-02  5.717E+00  4.854E+00 
   6.00000E-02  3.569E+00  2.947E+00 
   6.74164E-02  2.652E+00  2.139E+00 
K  6.74164E-02  1.180E+01  3.379E+00 
   8.00000E-02  7.587E+00  2.924E+00 
   1.00000E-01  4.302E+00  2.092E+00 
   1.50000E-01  1.531E+00  9.188E-01 
   2.00000E-01  7.598E-01  4.784E-01 
   3.00000E-01  3.149E-01  1.915E-01 
   4.00000E-01  1.881E-01  1.069E-01 
   5.00000E-01  1.352E-01  7.248E-02 
   6.00000E-01  1.076E-01  5.545E-02 
   8.00000E-01  7.981E-02  3.960E-02 
   1.00000E+00  6.567E-02  3.235E-02 
   1.25000E+00  5.545E-02  2.736E-02 
   1.50000E+00  4.977E-02  2.468E-02 
   2.00000E+00  4.413E-02  2.245E-02 
   3.00000E+00  4.057E-02  2.227E-02 
   4.00000E+00  4.018E-02  2.354E-02 
   5.00000E+00  4.082E-02  2.499E-02 
   6.00000E+00  4.188E-02  2.638E-02 
   8.00000E+00  4.446E-02  2.874E-02 
   1.00000E+01  4.717E-02  3.058E-02 
   1.50000E+01  5.350E-02  3.349E-02 
   2.00000E+01  5.852E-02  3.464E-02 
".

(** ries/nonresonant/nist_xrmac/74.txt, verbatim. *)
Definition xrmac_74 : string := "   1.00000E-03  3.683E+03  3.671E+03 
   1.50000E-03  1.643E+03  1.632E+03 
   1.80920E-03  1.108E+03  1.097E+03 
M5 1.80920E-03  1.327E+03  1.311E+03 
   1.84014E-03  1.911E+03  1.883E+03 
   1.87160E-03  2.901E+03  2.853E+03 
M4 1.87160E-03  3.170E+03  3.116E+03 
   2.00000E-03  3.922E+03  3.853E+03 
   2.28100E-03  2.828E+03  2.781E+03 
M3 2.28100E-03  3.279E+03  3.226E+03 
   2.42350E-03  2.833E+03  2.786E+03 
   2.57490E-03  2.445E+03  2.407E+03 
M2 2.57490E-03  2.599E+03  2.558E+03 
   2.69447E-03  2.339E+03  2.301E+03 
   2.81960E-03  2.104E+03  2.071E+03 
M1 2.81960E-03  2.194E+03  2.160E+03 
   3.00000E-03  1.902E+03  1.873E+03 
   4.00000E-03  9.564E+02  9.405E+02 
   5.00000E-03  5.534E+02  5.423E+02 
   6.00000E-03  3.514E+02  3.428E+02 
   8.00000E-03  1.705E+02  1.643E+02 
   1.00000E-02  9.691E+01  9.204E+01 
   1.02068E-02  9.201E+01  8.724E+01 
L3 1.02068E-02  2.334E+02  1.966E+02 
   1.08548E-02  1.983E+02  1.684E+02 
   1.15440E-02  1.689E+02  1.444E+02 
L2 1.15440E-02  2.312E+02  1.889E+02 
   1.18186E-02  2.268E+02  1.797E+02 
   1.20998E-02  2.065E+02  1.699E+02 
L1 1.20998E-02  2.382E+02  1.948E+02 
   1.50000E-02  1.389E+02  1.172E+02 
   2.00000E-02  6.573E+01  5.697E+01 
   3.00000E-02  2.273E+01  1.991E+01 
   4.00000E-02  1.067E+01  9.240E+00 
   5.00000E-02  5.949E+00  5.050E+00 
   6.00000E-02  3.713E+00  3.070E+00 
   6.95250E-02  2.552E+00  2.049E+00 
K  6.95250E-02  1.123E+01  3.212E+00 
   8.00000E-02  7.810E+00  2.879E+00 
   1.00000E-01  4.438E+00  2.100E+00 
   1.50000E-01  1.581E+00  9.378E-01 
   2.00000E-01  7.844E-01  4.913E-01 
   3.00000E-01  3.238E-01  1.973E-01 
   4.00000E-01  1.925E-01  1.100E-01 
   5.00000E-01  1.378E-01  7.440E-02 
   6.00000E-01  1.093E-01  5.673E-02 
   8.00000E-01  8.066E-02  4.028E-02 
   1.00000E+00  6.618E-02  3.276E-02 
   1.25000E+00  5.577E-02  2.761E-02 
   1.50000E+00  5.000E-02  2.484E-02 
   2.00000E+00  4.433E-02  2.256E-02 
   3.00000E+00  4.075E-02  2.236E-02 
   4.00000E+00  4.038E-02  2.363E-02 
   5.00000E+00  4.103E-02  2.510E-02 
   6.00000E+00  4.210E-02  2.649E-02 
   8.00000E+00  4.472E-02  2.886E-02 
   1.00000E+01  4.747E-02  3.072E-02 
   1.50000E+01  5.384E-02  3.360E-02 
   2.00000E+01  5.893E-02  3.475E-02 
".

(** ries/nonresonant/nist_xrmac/75.txt, verbatim. *)
Definition xrmac_75 : string := "   1.00000E-03  3.872E+03  3.860E+03 
   1.50000E-03  1.729E+03  1.717E+03 
   1.82240E-03  1.147E+03  1.135E+03 
M5 1.82240E-03  1.152E+03  1.141E+03 
   1.88459E-03  1.251E+03  1.235E+03 
   1.94890E-03  2.689E+03  2.642E+03 
M4 1.94890E-03  3.802E+03  3.730E+03 
   2.00000E-03  3.773E+03  3.702E+03 
   2.36730E-03  2.696E+03  2.648E+03 
M3 2.36730E-03  3.124E+03  3.069E+03 
   2.51955E-03  2.686E+03  2.639E+03 
   2.68160E-03  2.309E+03  2.270E+03 
M2 2.68160E-03  2.454E+03  2.412E+03 
   2.80386E-03  2.210E+03  2.174E+03 
   2.93170E-03  1.992E+03  1.959E+03 
M1 2.93170E-03  2.078E+03  2.043E+03 
   3.00000E-03  1.972E+03  1.939E+03 
   4.00000E-03  9.943E+02  9.771E+02 
   5.00000E-03  5.759E+02  5.642E+02 
   6.00000E-03  3.660E+02  3.569E+02 
   8.00000E-03  1.778E+02  1.714E+02 
   1.00000E-02  1.011E+02  9.610E+01 
   1.05353E-02  8.858E+01  8.386E+01 
L3 1.05353E-02  2.234E+02  1.869E+02 
   1.12245E-02  1.964E+02  1.594E+02 
   1.19587E-02  1.600E+02  1.360E+02 
L2 1.19587E-02  2.191E+02  1.776E+02 
   1.22394E-02  2.079E+02  1.690E+02 
   1.25267E-02  1.961E+02  1.600E+02 
L1 1.25267E-02  2.262E+02  1.834E+02 
   1.50000E-02  1.440E+02  1.201E+02 
   2.00000E-02  6.835E+01  5.876E+01 
   3.00000E-02  2.367E+01  2.064E+01 
   4.00000E-02  1.112E+01  9.614E+00 
   5.00000E-02  6.206E+00  5.265E+00 
   6.00000E-02  3.872E+00  3.205E+00 
   7.16764E-02  2.464E+00  1.970E+00 
K  7.16764E-02  1.073E+01  3.058E+00 
   8.00000E-02  8.069E+00  2.832E+00 
   1.00000E-01  4.587E+00  2.107E+00 
   1.50000E-01  1.637E+00  9.580E-01 
   2.00000E-01  8.119E-01  5.054E-01 
   3.00000E-01  3.339E-01  2.038E-01 
   4.00000E-01  1.976E-01  1.135E-01 
   5.00000E-01  1.409E-01  7.658E-02 
   6.00000E-01  1.114E-01  5.822E-02 
   8.00000E-01  8.179E-02  4.109E-02 
   1.00000E+00  6.688E-02  3.327E-02 
   1.25000E+00  5.627E-02  2.794E-02 
   1.50000E+00  5.038E-02  2.508E-02 
   2.00000E+00  4.463E-02  2.273E-02 
   3.00000E+00  4.105E-02  2.251E-02 
   4.00000E+00  4.068E-02  2.380E-02 
   5.00000E+00  4.137E-02  2.527E-02 
   6.00000E+00  4.246E-02  2.667E-02 
   8.00000E+00  4.511E-02  2.906E-02 
   1.00000E+01  4.790E-02  3.092E-02 
   1.50000E+01  5.437E-02  3.382E-02 
   2.00000E+01  5.953E-02  3.496E-02 
".

(** ries/nonresonant/nist_xrmac/76.txt, verbatim. *)
Definition xrmac_76 : string := "   1.00000E-03  4.032E+03  4.019E+03 
   1.50000E-03  1.801E+03  1.790E+03 
   1.96010E-03  1.023E+03  1.012E+03 
M5 1.96010E-03  2.003E+03  1.969E+03 
   2.00000E-03  2.218E+03  2.179E+03 
   2.03080E-03  2.622E+03  2.573E+03 
M4 2.03080E-03  2.864E+03  2.810E+03 
   2.23385E-03  2.852E+03  2.797E+03 
   2.45720E-03  2.546E+03  2.498E+03 
M3 2.45720E-03  2.948E+03  2.893E+03 
   2.61935E-03  2.524E+03  2.478E+03 
   2.79220E-03  2.161E+03  2.123E+03 
M2 2.79220E-03  2.296E+03  2.255E+03 
   3.00000E-03  1.938E+03  1.904E+03 
   3.04850E-03  1.869E+03  1.836E+03 
M1 3.04850E-03  1.949E+03  1.915E+03 
   4.00000E-03  1.023E+03  1.004E+03 
   5.00000E-03  5.936E+02  5.813E+02 
   6.00000E-03  3.776E+02  3.682E+02 
   8.00000E-03  1.836E+02  1.770E+02 
   1.00000E-02  1.045E+02  9.940E+01 
   1.08709E-02  8.458E+01  7.994E+01 
L3 1.08709E-02  2.121E+02  1.762E+02 
   1.16033E-02  1.860E+02  1.495E+02 
   1.23850E-02  1.503E+02  1.271E+02 
L2 1.23850E-02  2.060E+02  1.654E+02 
   1.26731E-02  1.956E+02  1.576E+02 
   1.29680E-02  1.846E+02  1.494E+02 
L1 1.29680E-02  2.129E+02  1.711E+02 
   1.50000E-02  1.478E+02  1.218E+02 
   2.00000E-02  7.039E+01  5.999E+01 
   3.00000E-02  2.443E+01  2.120E+01 
   4.00000E-02  1.149E+01  9.907E+00 
   5.00000E-02  6.414E+00  5.437E+00 
   6.00000E-02  4.002E+00  3.314E+00 
   7.38708E-02  2.360E+00  1.879E+00 
K  7.38708E-02  1.016E+01  2.888E+00 
   8.00000E-02  8.290E+00  2.756E+00 
   1.00000E-01  4.696E+00  2.092E+00 
   1.50000E-01  1.680E+00  9.696E-01 
   2.00000E-01  8.327E-01  5.150E-01 
   3.00000E-01  3.414E-01  2.085E-01 
   4.00000E-01  2.011E-01  1.161E-01 
   5.00000E-01  1.428E-01  7.813E-02 
   6.00000E-01  1.125E-01  5.923E-02 
   8.00000E-01  8.224E-02  4.157E-02 
   1.00000E+00  6.705E-02  3.351E-02 
   1.25000E+00  5.625E-02  2.802E-02 
   1.50000E+00  5.034E-02  2.511E-02 
   2.00000E+00  4.458E-02  2.272E-02 
   3.00000E+00  4.100E-02  2.248E-02 
   4.00000E+00  4.065E-02  2.376E-02 
   5.00000E+00  4.134E-02  2.523E-02 
   6.00000E+00  4.244E-02  2.663E-02 
   8.00000E+00  4.511E-02  2.901E-02 
   1.00000E+01  4.791E-02  3.086E-02 
   1.50000E+01  5.442E-02  3.375E-02 
   2.00000E+01  5.956E-02  3.486E-02 
".

(** ries/nonresonant/nist_xrmac/77.txt, verbatim. *)
Definition xrmac_77 : string := "   1.00000E-03  4.243E+03  4.230E+03 
   1.50000E-03  1.898E+03  1.886E+03 
   2.00000E-03  1.032E+03  1.021E+03 
   2.04040E-03  9.882E+02  9.771E+02 
M5 2.04040E-03  1.066E+03  1.053E+03 
   2.07790E-03  1.492E+03  1.466E+03 
   2.11610E-03  2.478E+03  2.429E+03 
M4 2.11610E-03  2.608E+03  2.556E+03 
   2.32326E-03  2.621E+03  2.566E+03 
   2.55070E-03  2.424E+03  2.376E+03 
M3 2.55070E-03  2.800E+03  2.744E+03 
   2.72382E-03  2.393E+03  2.345E+03 
   2.90870E-03  2.041E+03  2.002E+03 
M2 2.90870E-03  2.166E+03  2.125E+03 
   3.00000E-03  2.011E+03  1.973E+03 
   3.17370E-03  1.767E+03  1.734E+03 
M1 3.17370E-03  1.843E+03  1.809E+03 
   4.00000E-03  1.063E+03  1.043E+03 
   5.00000E-03  6.178E+02  6.047E+02 
   6.00000E-03  3.935E+02  3.837E+02 
   8.00000E-03  1.914E+02  1.846E+02 
   1.00000E-02  1.090E+02  1.038E+02 
   1.12154E-02  8.155E+01  7.695E+01 
L3 1.12154E-02  2.038E+02  1.681E+02 
   1.19928E-02  1.702E+02  1.418E+02 
   1.28241E-02  1.426E+02  1.199E+02 
L2 1.28241E-02  1.959E+02  1.559E+02 
   1.31179E-02  1.933E+02  1.486E+02 
   1.34185E-02  1.756E+02  1.409E+02 
L1 1.34185E-02  2.025E+02  1.613E+02 
   1.50000E-02  1.530E+02  1.244E+02 
   2.00000E-02  7.317E+01  6.179E+01 
   3.00000E-02  2.546E+01  2.198E+01 
   4.00000E-02  1.199E+01  1.030E+01 
   5.00000E-02  6.693E+00  5.667E+00 
   6.00000E-02  4.176E+00  3.460E+00 
   7.61110E-02  2.284E+00  1.810E+00 
K  7.61110E-02  9.728E+00  2.758E+00 
   8.00000E-02  8.585E+00  2.694E+00 
   1.00000E-01  4.855E+00  2.093E+00 
   1.50000E-01  1.740E+00  9.903E-01 
   2.00000E-01  8.628E-01  5.290E-01 
   3.00000E-01  3.525E-01  2.155E-01 
   4.00000E-01  2.068E-01  1.199E-01 
   5.00000E-01  1.463E-01  8.054E-02 
   6.00000E-01  1.149E-01  6.088E-02 
   8.00000E-01  8.357E-02  4.250E-02 
   1.00000E+00  6.794E-02  3.412E-02 
   1.25000E+00  5.688E-02  2.843E-02 
   1.50000E+00  5.083E-02  2.541E-02 
   2.00000E+00  4.501E-02  2.295E-02 
   3.00000E+00  4.139E-02  2.269E-02 
   4.00000E+00  4.104E-02  2.398E-02 
   5.00000E+00  4.174E-02  2.546E-02 
   6.00000E+00  4.286E-02  2.687E-02 
   8.00000E+00  4.558E-02  2.927E-02 
   1.00000E+01  4.844E-02  3.115E-02 
   1.50000E+01  5.502E-02  3.405E-02 
   2.00000E+01  6.024E-02  3.516E-02 
".

(** ries/nonresonant/nist_xrmac/78.txt, verbatim. *)
Definition xrmac_78 : string := "   1.00000E-03  4.433E+03  4.421E+03 
   1.50000E-03  1.986E+03  1.974E+03 
   2.00000E-03  1.081E+03  1.069E+03 
   2.12160E-03  9.506E+02  9.393E+02 
M5 2.12160E-03  1.034E+03  1.021E+03 
   2.16138E-03  1.431E+03  1.405E+03 
   2.20190E-03  2.341E+03  2.292E+03 
M4 2.20190E-03  2.487E+03  2.434E+03 
   2.41348E-03  2.512E+03  2.457E+03 
   2.64540E-03  2.307E+03  2.258E+03 
M3 2.64540E-03  2.663E+03  2.606E+03 
   3.00000E-03  1.965E+03  1.925E+03 
   3.02650E-03  1.923E+03  1.884E+03 
M2 3.02650E-03  2.041E+03  2.000E+03 
   3.15838E-03  1.844E+03  1.806E+03 
   3.29600E-03  1.671E+03  1.637E+03 
M1 3.29600E-03  1.742E+03  1.707E+03 
   4.00000E-03  1.100E+03  1.078E+03 
   5.00000E-03  6.402E+02  6.262E+02 
   6.00000E-03  4.083E+02  3.979E+02 
   8.00000E-03  1.987E+02  1.917E+02 
   1.00000E-02  1.132E+02  1.078E+02 
   1.15637E-02  7.844E+01  7.388E+01 
L3 1.15637E-02  1.946E+02  1.594E+02 
   1.23887E-02  1.618E+02  1.339E+02 
   1.32726E-02  1.349E+02  1.127E+02 
L2 1.32726E-02  1.853E+02  1.463E+02 
   1.35729E-02  1.848E+02  1.395E+02 
   1.38799E-02  1.666E+02  1.325E+02 
L1 1.38799E-02  1.921E+02  1.517E+02 
   1.50000E-02  1.578E+02  1.265E+02 
   2.00000E-02  7.574E+01  6.333E+01 
   3.00000E-02  2.641E+01  2.268E+01 
   4.00000E-02  1.245E+01  1.067E+01 
   5.00000E-02  6.954E+00  5.879E+00 
   6.00000E-02  4.339E+00  3.595E+00 
   7.83948E-02  2.203E+00  1.738E+00 
K  7.83948E-02  9.301E+00  2.627E+00 
   8.00000E-02  8.731E+00  2.592E+00 
   1.00000E-01  4.993E+00  2.081E+00 
   1.50000E-01  1.795E+00  1.006E+00 
   2.00000E-01  8.896E-01  5.413E-01 
   3.00000E-01  3.625E-01  2.216E-01 
   4.00000E-01  2.118E-01  1.233E-01 
   5.00000E-01  1.492E-01  8.265E-02 
   6.00000E-01  1.168E-01  6.230E-02 
   8.00000E-01  8.456E-02  4.325E-02 
   1.00000E+00  6.857E-02  3.459E-02 
   1.25000E+00  5.727E-02  2.871E-02 
   1.50000E+00  5.112E-02  2.560E-02 
   2.00000E+00  4.522E-02  2.307E-02 
   3.00000E+00  4.160E-02  2.279E-02 
   4.00000E+00  4.124E-02  2.408E-02 
   5.00000E+00  4.196E-02  2.557E-02 
   6.00000E+00  4.310E-02  2.699E-02 
   8.00000E+00  4.584E-02  2.939E-02 
   1.00000E+01  4.872E-02  3.127E-02 
   1.50000E+01  5.537E-02  3.418E-02 
   2.00000E+01  6.064E-02  3.529E-02 
".

(** ries/nonresonant/nist_xrmac/79.txt, verbatim. *)
Definition xrmac_79 : string := "   1.00000E-03  4.652E+03  4.639E+03 
   1.50000E-03  2.089E+03  2.076E+03 
   2.00000E-03  1.137E+03  1.125E+03 
   2.20570E-03  9.187E+02  9.074E+02 
M5 2.20570E-03  9.971E+02  9.836E+02 
   2.24799E-03  1.386E+03  1.360E+03 
   2.29110E-03  2.258E+03  2.208E+03 
M4 2.29110E-03  2.389E+03  2.336E+03 
   2.50689E-03  2.380E+03  2.325E+03 
   2.74300E-03  2.203E+03  2.154E+03 
M3 2.74300E-03  2.541E+03  2.484E+03 
   3.00000E-03  2.049E+03  2.005E+03 
   3.14780E-03  1.822E+03  1.783E+03 
M2 3.14780E-03  1.933E+03  1.892E+03 
   3.28343E-03  1.748E+03  1.710E+03 
   3.42490E-03  1.585E+03  1.552E+03 
M1 3.42490E-03  1.652E+03  1.618E+03 
   4.00000E-03  1.144E+03  1.120E+03 
   5.00000E-03  6.661E+02  6.512E+02 
   6.00000E-03  4.253E+02  4.143E+02 
   8.00000E-03  2.072E+02  1.999E+02 
   1.00000E-02  1.181E+02  1.126E+02 
   1.19187E-02  7.582E+01  7.129E+01 
L3 1.19187E-02  1.870E+02  1.521E+02 
   1.27940E-02  1.546E+02  1.272E+02 
   1.37336E-02  1.283E+02  1.066E+02 
L2 1.37336E-02  1.764E+02  1.379E+02 
   1.40398E-02  1.766E+02  1.317E+02 
   1.43528E-02  1.588E+02  1.252E+02 
L1 1.43528E-02  1.830E+02  1.432E+02 
   1.50000E-02  1.637E+02  1.294E+02 
   2.00000E-02  7.883E+01  6.522E+01 
   3.00000E-02  2.752E+01  2.349E+01 
   4.00000E-02  1.298E+01  1.109E+01 
   5.00000E-02  7.256E+00  6.124E+00 
   6.00000E-02  4.528E+00  3.751E+00 
   8.00000E-02  2.185E+00  1.720E+00 
   8.07249E-02  2.137E+00  1.678E+00 
K  8.07249E-02  8.904E+00  2.512E+00 
   1.00000E-01  5.158E+00  2.074E+00 
   1.50000E-01  1.860E+00  1.026E+00 
   2.00000E-01  9.214E-01  5.563E-01 
   3.00000E-01  3.744E-01  2.289E-01 
   4.00000E-01  2.180E-01  1.274E-01 
   5.00000E-01  1.530E-01  8.523E-02 
   6.00000E-01  1.194E-01  6.409E-02 
   8.00000E-01  8.603E-02  4.427E-02 
   1.00000E+00  6.953E-02  3.525E-02 
   1.25000E+00  5.794E-02  2.915E-02 
   1.50000E+00  5.167E-02  2.593E-02 
   2.00000E+00  4.570E-02  2.333E-02 
   3.00000E+00  4.201E-02  2.302E-02 
   4.00000E+00  4.166E-02  2.432E-02 
   5.00000E+00  4.239E-02  2.582E-02 
   6.00000E+00  4.355E-02  2.725E-02 
   8.00000E+00  4.633E-02  2.968E-02 
   1.00000E+01  4.926E-02  3.159E-02 
   1.50000E+01  5.598E-02  3.450E-02 
   2.00000E+01  6.136E-02  3.565E-02 
".

(** ries/nonresonant/nist_xrmac/80.txt, verbatim. *)
Definition xrmac_80 : string := "   1.00000E-03  4.830E+03  4.817E+03 
   1.50000E-03  2.174E+03  2.161E+03 
   2.00000E-03  1.184E+03  1.172E+03 
   2.29490E-03  8.773E+02  8.660E+02 
M5 2.29490E-03  9.925E+02  9.778E+02 
   2.33947E-03  1.407E+03  1.378E+03 
   2.38490E-03  2.151E+03  2.101E+03 
M4 2.38490E-03  2.316E+03  2.261E+03 
   2.60577E-03  2.257E+03  2.202E+03 
   2.84710E-03  2.080E+03  2.030E+03 
M3 2.84710E-03  2.400E+03  2.343E+03 
   3.00000E-03  2.117E+03  2.069E+03 
   3.27850E-03  1.704E+03  1.666E+03 
M2 3.27850E-03  1.808E+03  1.767E+03 
   3.41712E-03  1.638E+03  1.600E+03 
   3.56160E-03  1.486E+03  1.454E+03 
M1 3.56160E-03  1.549E+03  1.515E+03 
   4.00000E-03  1.179E+03  1.153E+03 
   5.00000E-03  6.869E+02  6.710E+02 
   6.00000E-03  4.387E+02  4.272E+02 
   8.00000E-03  2.140E+02  2.065E+02 
   1.00000E-02  1.221E+02  1.164E+02 
   1.22839E-02  7.266E+01  6.821E+01 
L3 1.22839E-02  1.780E+02  1.437E+02 
   1.32113E-02  1.464E+02  1.197E+02 
   1.42087E-02  1.209E+02  9.988E+01 
L2 1.42087E-02  1.663E+02  1.289E+02 
   1.45206E-02  1.674E+02  1.233E+02 
   1.48393E-02  1.501E+02  1.173E+02 
L1 1.48393E-02  1.728E+02  1.340E+02 
   1.50000E-02  1.681E+02  1.307E+02 
   2.00000E-02  8.123E+01  6.647E+01 
   3.00000E-02  2.841E+01  2.410E+01 
   4.00000E-02  1.342E+01  1.141E+01 
   5.00000E-02  7.504E+00  6.321E+00 
   6.00000E-02  4.683E+00  3.878E+00 
   8.00000E-02  2.259E+00  1.782E+00 
   8.31023E-02  2.055E+00  1.607E+00 
K  8.31023E-02  8.464E+00  2.384E+00 
   1.00000E-01  5.279E+00  2.043E+00 
   1.50000E-01  1.909E+00  1.036E+00 
   2.00000E-01  9.456E-01  5.661E-01 
   3.00000E-01  3.834E-01  2.342E-01 
   4.00000E-01  2.224E-01  1.304E-01 
   5.00000E-01  1.555E-01  8.711E-02 
   6.00000E-01  1.210E-01  6.536E-02 
   8.00000E-01  8.679E-02  4.493E-02 
   1.00000E+00  6.993E-02  3.563E-02 
   1.25000E+00  5.814E-02  2.936E-02 
   1.50000E+00  5.179E-02  2.605E-02 
   2.00000E+00  4.575E-02  2.339E-02 
   3.00000E+00  4.207E-02  2.307E-02 
   4.00000E+00  4.172E-02  2.436E-02 
   5.00000E+00  4.246E-02  2.586E-02 
   6.00000E+00  4.362E-02  2.730E-02 
   8.00000E+00  4.643E-02  2.975E-02 
   1.00000E+01  4.937E-02  3.165E-02 
   1.50000E+01  5.613E-02  3.460E-02 
   2.00000E+01  6.154E-02  3.576E-02 
".

(** ries/nonresonant/nist_xrmac/81.txt, verbatim. *)
Definition xrmac_81 : string := "   1.00000E-03  5.008E+03  4.995E+03 
   1.50000E-03  2.259E+03  2.247E+03 
   2.00000E-03  1.231E+03  1.219E+03 
   2.38930E-03  8.352E+02  8.240E+02 
M5 2.38930E-03  1.136E+03  1.115E+03 
   2.43673E-03  1.582E+03  1.546E+03 
   2.48510E-03  2.049E+03  1.999E+03 
M4 2.48510E-03  2.364E+03  2.303E+03 
   2.71062E-03  2.207E+03  2.150E+03 
   2.95660E-03  1.958E+03  1.910E+03 
M3 2.95660E-03  2.267E+03  2.210E+03 
   3.00000E-03  2.188E+03  2.135E+03 
   3.41570E-03  1.591E+03  1.553E+03 
M2 3.41570E-03  1.687E+03  1.647E+03 
   3.55698E-03  1.530E+03  1.495E+03 
   3.70410E-03  1.392E+03  1.360E+03 
M1 3.70410E-03  1.452E+03  1.419E+03 
   4.00000E-03  1.212E+03  1.185E+03 
   5.00000E-03  7.068E+02  6.900E+02 
   6.00000E-03  4.518E+02  4.398E+02 
   8.00000E-03  2.208E+02  2.131E+02 
   1.00000E-02  1.260E+02  1.202E+02 
   1.26575E-02  6.957E+01  6.521E+01 
L3 1.26575E-02  1.693E+02  1.357E+02 
   1.36396E-02  1.473E+02  1.126E+02 
   1.46979E-02  1.139E+02  9.356E+01 
L2 1.46979E-02  1.572E+02  1.207E+02 
   1.50000E-02  1.497E+02  1.154E+02 
   1.53467E-02  1.416E+02  1.097E+02 
L1 1.53467E-02  1.632E+02  1.254E+02 
   2.00000E-02  8.361E+01  6.761E+01 
   3.00000E-02  2.929E+01  2.467E+01 
   4.00000E-02  1.385E+01  1.173E+01 
   5.00000E-02  7.751E+00  6.513E+00 
   6.00000E-02  4.838E+00  4.003E+00 
   8.00000E-02  2.332E+00  1.844E+00 
   8.55304E-02  1.976E+00  1.539E+00 
K  8.55304E-02  8.046E+00  2.264E+00 
   1.00000E-01  5.398E+00  2.007E+00 
   1.50000E-01  1.957E+00  1.044E+00 
   2.00000E-01  9.696E-01  5.753E-01 
   3.00000E-01  3.923E-01  2.393E-01 
   4.00000E-01  2.267E-01  1.334E-01 
   5.00000E-01  1.580E-01  8.897E-02 
   6.00000E-01  1.226E-01  6.661E-02 
   8.00000E-01  8.751E-02  4.557E-02 
   1.00000E+00  7.031E-02  3.600E-02 
   1.25000E+00  5.832E-02  2.955E-02 
   1.50000E+00  5.187E-02  2.616E-02 
   2.00000E+00  4.581E-02  2.345E-02 
   3.00000E+00  4.210E-02  2.309E-02 
   4.00000E+00  4.175E-02  2.437E-02 
   5.00000E+00  4.248E-02  2.587E-02 
   6.00000E+00  4.366E-02  2.731E-02 
   8.00000E+00  4.647E-02  2.975E-02 
   1.00000E+01  4.943E-02  3.167E-02 
   1.50000E+01  5.622E-02  3.463E-02 
   2.00000E+01  6.162E-02  3.578E-02 
".

(** ries/nonresonant/nist_xrmac/82.txt, verbatim. *)
Definition xrmac_82 : string := "   1.00000E-03  5.210E+03  5.197E+03 
   1.50000E-03  2.356E+03  2.344E+03 
   2.00000E-03  1.285E+03  1.274E+03 
   2.48400E-03  8.006E+02  7.895E+02 
M5 2.48400E-03  1.397E+03  1.366E+03 
   2.53429E-03  1.726E+03  1.682E+03 
   2.58560E-03  1.944E+03  1.895E+03 
M4 2.58560E-03  2.458E+03  2.390E+03 
   3.00000E-03  1.965E+03  1.913E+03 
   3.06640E-03  1.857E+03  1.808E+03 
M3 3.06640E-03  2.146E+03  2.090E+03 
   3.30130E-03  1.796E+03  1.748E+03 
   3.55420E-03  1.496E+03  1.459E+03 
M2 3.55420E-03  1.585E+03  1.546E+03 
   3.69948E-03  1.442E+03  1.405E+03 
   3.85070E-03  1.311E+03  1.279E+03 
M1 3.85070E-03  1.368E+03  1.335E+03 
   4.00000E-03  1.251E+03  1.221E+03 
   5.00000E-03  7.304E+02  7.124E+02 
   6.00000E-03  4.672E+02  4.546E+02 
   8.00000E-03  2.287E+02  2.207E+02 
   1.00000E-02  1.306E+02  1.247E+02 
   1.30352E-02  6.701E+01  6.270E+01 
L3 1.30352E-02  1.621E+02  1.291E+02 
   1.50000E-02  1.116E+02  9.100E+01 
   1.52000E-02  1.078E+02  8.807E+01 
L2 1.52000E-02  1.485E+02  1.131E+02 
   1.55269E-02  1.416E+02  1.083E+02 
   1.58608E-02  1.344E+02  1.032E+02 
L1 1.58608E-02  1.548E+02  1.180E+02 
   2.00000E-02  8.636E+01  6.899E+01 
   3.00000E-02  3.032E+01  2.536E+01 
   4.00000E-02  1.436E+01  1.211E+01 
   5.00000E-02  8.041E+00  6.740E+00 
   6.00000E-02  5.021E+00  4.149E+00 
   8.00000E-02  2.419E+00  1.916E+00 
   8.80045E-02  1.910E+00  1.482E+00 
K  8.80045E-02  7.683E+00  2.160E+00 
   1.00000E-01  5.549E+00  1.976E+00 
   1.50000E-01  2.014E+00  1.056E+00 
   2.00000E-01  9.985E-01  5.870E-01 
   3.00000E-01  4.031E-01  2.455E-01 
   4.00000E-01  2.323E-01  1.370E-01 
   5.00000E-01  1.614E-01  9.128E-02 
   6.00000E-01  1.248E-01  6.819E-02 
   8.00000E-01  8.870E-02  4.644E-02 
   1.00000E+00  7.102E-02  3.654E-02 
   1.25000E+00  5.876E-02  2.988E-02 
   1.50000E+00  5.222E-02  2.640E-02 
   2.00000E+00  4.606E-02  2.360E-02 
   3.00000E+00  4.234E-02  2.322E-02 
   4.00000E+00  4.197E-02  2.449E-02 
   5.00000E+00  4.272E-02  2.600E-02 
   6.00000E+00  4.391E-02  2.744E-02 
   8.00000E+00  4.675E-02  2.989E-02 
   1.00000E+01  4.972E-02  3.181E-02 
   1.50000E+01  5.658E-02  3.478E-02 
   2.00000E+01  6.206E-02  3.595E-02 ".

(** ries/nonresonant/nist_xrmac/83.txt, verbatim. *)
Definition xrmac_83 : string := "   1.00000E-03  5.441E+03  5.427E+03 
   1.50000E-03  2.468E+03  2.455E+03 
   2.00000E-03  1.348E+03  1.336E+03 
   2.57960E-03  7.724E+02  7.612E+02 
M5 2.57960E-03  1.777E+03  1.731E+03 
   2.63305E-03  1.850E+03  1.799E+03 
   2.68760E-03  1.852E+03  1.802E+03 
M4 2.68760E-03  2.576E+03  2.500E+03 
   3.00000E-03  2.053E+03  1.996E+03 
   3.17690E-03  1.774E+03  1.725E+03 
M3 3.17690E-03  2.048E+03  1.992E+03 
   3.42677E-03  1.707E+03  1.659E+03 
   3.69630E-03  1.415E+03  1.378E+03 
M2 3.69630E-03  1.498E+03  1.460E+03 
   3.84472E-03  1.366E+03  1.329E+03 
   3.99910E-03  1.243E+03  1.211E+03 
M1 3.99910E-03  1.297E+03  1.264E+03 
   4.00000E-03  1.296E+03  1.263E+03 
   5.00000E-03  7.580E+02  7.386E+02 
   6.00000E-03  4.855E+02  4.721E+02 
   8.00000E-03  2.378E+02  2.295E+02 
   1.00000E-02  1.360E+02  1.298E+02 
   1.34186E-02  6.491E+01  6.064E+01 
L3 1.34186E-02  1.560E+02  1.234E+02 
   1.50000E-02  1.160E+02  9.358E+01 
   1.57111E-02  1.027E+02  8.346E+01 
L2 1.57111E-02  1.416E+02  1.069E+02 
   1.60457E-02  1.351E+02  1.024E+02 
   1.63875E-02  1.282E+02  9.769E+01 
L1 1.63875E-02  1.478E+02  1.116E+02 
   2.00000E-02  8.952E+01  7.060E+01 
   3.00000E-02  3.152E+01  2.617E+01 
   4.00000E-02  1.495E+01  1.255E+01 
   5.00000E-02  8.379E+00  7.004E+00 
   6.00000E-02  5.233E+00  4.320E+00 
   8.00000E-02  2.522E+00  1.999E+00 
   9.05259E-02  1.856E+00  1.434E+00 
K  9.05259E-02  7.380E+00  2.073E+00 
   1.00000E-01  5.739E+00  1.951E+00 
   1.50000E-01  2.082E+00  1.071E+00 
   2.00000E-01  1.033E+00  6.014E-01 
   3.00000E-01  4.163E-01  2.532E-01 
   4.00000E-01  2.391E-01  1.414E-01 
   5.00000E-01  1.656E-01  9.411E-02 
   6.00000E-01  1.277E-01  7.017E-02 
   8.00000E-01  9.036E-02  4.758E-02 
   1.00000E+00  7.214E-02  3.730E-02 
   1.25000E+00  5.955E-02  3.039E-02 
   1.50000E+00  5.285E-02  2.678E-02 
   2.00000E+00  4.659E-02  2.389E-02 
   3.00000E+00  4.279E-02  2.347E-02 
   4.00000E+00  4.242E-02  2.475E-02 
   5.00000E+00  4.317E-02  2.626E-02 
   6.00000E+00  4.437E-02  2.772E-02 
   8.00000E+00  4.725E-02  3.020E-02 
   1.00000E+01  5.025E-02  3.213E-02 
   1.50000E+01  5.721E-02  3.514E-02 
   2.00000E+01  6.276E-02  3.632E-02 
".

(** ries/nonresonant/nist_xrmac/84.txt, verbatim. *)
Definition xrmac_84 : string := "   1.00000E-03  5.724E+03  5.710E+03 
   1.50000E-03  2.604E+03  2.591E+03 
   2.00000E-03  1.423E+03  1.411E+03 
   2.68300E-03  7.482E+02  7.369E+02 
M5 2.68300E-03  2.206E+03  2.142E+03 
   2.73990E-03  1.941E+03  1.884E+03 
   2.79800E-03  1.775E+03  1.726E+03 
M4 2.79800E-03  2.711E+03  2.625E+03 
   3.00000E-03  2.155E+03  2.090E+03 
   3.30190E-03  1.693E+03  1.645E+03 
M3 3.30190E-03  1.956E+03  1.900E+03 
   3.56733E-03  1.622E+03  1.576E+03 
   3.85410E-03  1.339E+03  1.303E+03 
M2 3.85410E-03  1.419E+03  1.381E+03 
   4.00000E-03  1.299E+03  1.264E+03 
   4.14940E-03  1.190E+03  1.158E+03 
M1 4.14940E-03  1.242E+03  1.209E+03 
   5.00000E-03  7.931E+02  7.721E+02 
   6.00000E-03  5.085E+02  4.942E+02 
   8.00000E-03  2.494E+02  2.406E+02 
   1.00000E-02  1.427E+02  1.363E+02 
   1.38138E-02  6.337E+01  5.910E+01 
L3 1.38138E-02  1.513E+02  1.189E+02 
   1.50000E-02  1.219E+02  9.728E+01 
   1.62443E-02  9.849E+01  7.965E+01 
L2 1.62443E-02  1.361E+02  1.019E+02 
   1.65882E-02  1.297E+02  9.755E+01 
   1.69393E-02  1.232E+02  9.308E+01 
L1 1.69393E-02  1.420E+02  1.063E+02 
   2.00000E-02  9.352E+01  7.278E+01 
   3.00000E-02  3.303E+01  2.721E+01 
   4.00000E-02  1.569E+01  1.311E+01 
   5.00000E-02  8.802E+00  7.334E+00 
   6.00000E-02  5.499E+00  4.532E+00 
   8.00000E-02  2.649E+00  2.103E+00 
   9.31050E-02  1.820E+00  1.400E+00 
K  9.31050E-02  7.140E+00  2.005E+00 
   1.00000E-01  5.991E+00  1.936E+00 
   1.50000E-01  2.170E+00  1.095E+00 
   2.00000E-01  1.078E+00  6.207E-01 
   3.00000E-01  4.335E-01  2.630E-01 
   4.00000E-01  2.483E-01  1.471E-01 
   5.00000E-01  1.714E-01  9.781E-02 
   6.00000E-01  1.318E-01  7.281E-02 
   8.00000E-01  9.286E-02  4.916E-02 
   1.00000E+00  7.391E-02  3.839E-02 
   1.25000E+00  6.087E-02  3.117E-02 
   1.50000E+00  5.394E-02  2.740E-02 
   2.00000E+00  4.749E-02  2.438E-02 
   3.00000E+00  4.362E-02  2.392E-02 
   4.00000E+00  4.323E-02  2.521E-02 
   5.00000E+00  4.399E-02  2.674E-02 
   6.00000E+00  4.522E-02  2.822E-02 
   8.00000E+00  4.816E-02  3.074E-02 
   1.00000E+01  5.124E-02  3.271E-02 
   1.50000E+01  5.835E-02  3.577E-02 
   2.00000E+01  6.398E-02  3.694E-02 
".

(** ries/nonresonant/nist_xrmac/85.txt, verbatim. *)
Definition xrmac_85 : string := "   1.00000E-03  5.868E+03  5.854E+03 
   1.02078E-03  5.651E+03  5.637E+03 
   1.04200E-03  5.435E+03  5.420E+03 
N1 1.04200E-03  5.551E+03  5.537E+03 
   1.50000E-03  2.731E+03  2.717E+03 
   2.00000E-03  1.495E+03  1.482E+03 
   2.78670E-03  7.225E+02  7.112E+02 
M5 2.78670E-03  2.431E+03  2.355E+03 
   2.84705E-03  1.928E+03  1.869E+03 
   2.90870E-03  1.686E+03  1.638E+03 
M4 2.90870E-03  2.763E+03  2.671E+03 
   3.00000E-03  2.250E+03  2.178E+03 
   3.42600E-03  1.614E+03  1.566E+03 
M3 3.42600E-03  1.866E+03  1.811E+03 
   4.00000E-03  1.275E+03  1.240E+03 
   4.00800E-03  1.269E+03  1.233E+03 
M2 4.00800E-03  1.345E+03  1.308E+03 
   4.15963E-03  1.234E+03  1.196E+03 
   4.31700E-03  1.126E+03  1.095E+03 
M1 4.31700E-03  1.175E+03  1.142E+03 
   5.00000E-03  8.251E+02  8.025E+02 
   6.00000E-03  5.299E+02  5.146E+02 
   8.00000E-03  2.601E+02  2.509E+02 
   1.00000E-02  1.490E+02  1.423E+02 
   1.42135E-02  6.162E+01  5.738E+01 
L3 1.42135E-02  1.461E+02  1.140E+02 
   1.50000E-02  1.279E+02  1.008E+02 
   1.67847E-02  9.417E+01  7.576E+01 
L2 1.67847E-02  1.302E+02  9.670E+01 
   1.71352E-02  1.338E+02  9.264E+01 
   1.74930E-02  1.181E+02  8.847E+01 
L1 1.74930E-02  1.360E+02  1.010E+02 
   2.00000E-02  9.704E+01  7.446E+01 
   3.00000E-02  3.442E+01  2.812E+01 
   4.00000E-02  1.638E+01  1.361E+01 
   5.00000E-02  9.196E+00  7.637E+00 
   6.00000E-02  5.748E+00  4.729E+00 
   8.00000E-02  2.769E+00  2.200E+00 
   9.57299E-02  1.777E+00  1.361E+00 
K  9.57299E-02  6.895E+00  1.935E+00 
   1.00000E-01  6.174E+00  1.897E+00 
   1.50000E-01  2.249E+00  1.112E+00 
   2.00000E-01  1.118E+00  6.369E-01 
   3.00000E-01  4.491E-01  2.718E-01 
   4.00000E-01  2.565E-01  1.522E-01 
   5.00000E-01  1.765E-01  1.012E-01 
   6.00000E-01  1.354E-01  7.517E-02 
   8.00000E-01  9.495E-02  5.055E-02 
   1.00000E+00  7.538E-02  3.934E-02 
   1.25000E+00  6.189E-02  3.181E-02 
   1.50000E+00  5.479E-02  2.791E-02 
   2.00000E+00  4.821E-02  2.478E-02 
   3.00000E+00  4.424E-02  2.427E-02 
   4.00000E+00  4.383E-02  2.556E-02 
   5.00000E+00  4.461E-02  2.710E-02 
   6.00000E+00  4.585E-02  2.859E-02 
   8.00000E+00  4.883E-02  3.113E-02 
   1.00000E+01  5.195E-02  3.311E-02 
   1.50000E+01  5.918E-02  3.619E-02 
   2.00000E+01  6.493E-02  3.739E-02 
".

(** ries/nonresonant/nist_xrmac/86.txt, verbatim. *)
Definition xrmac_86 : string := "   1.00000E-03  5.826E+03  5.812E+03 
   1.04738E-03  5.354E+03  5.340E+03 
   1.09700E-03  4.909E+03  4.895E+03 
N1 1.09700E-03  5.013E+03  5.000E+03 
   1.50000E-03  2.719E+03  2.706E+03 
   2.00000E-03  1.490E+03  1.478E+03 
   2.89240E-03  6.634E+02  6.526E+02 
M5 2.89240E-03  2.319E+03  2.243E+03 
   3.00000E-03  1.554E+03  1.507E+03 
   3.02150E-03  1.524E+03  1.479E+03 
M4 3.02150E-03  2.470E+03  2.384E+03 
   3.26957E-03  1.867E+03  1.804E+03 
   3.53800E-03  1.479E+03  1.433E+03 
M3 3.53800E-03  1.710E+03  1.657E+03 
   4.00000E-03  1.266E+03  1.229E+03 
   4.15900E-03  1.148E+03  1.115E+03 
M2 4.15900E-03  1.217E+03  1.182E+03 
   4.31748E-03  1.112E+03  1.080E+03 
   4.48200E-03  1.017E+03  9.877E+02 
M1 4.48200E-03  1.061E+03  1.031E+03 
   5.00000E-03  8.163E+02  7.931E+02 
   6.00000E-03  5.240E+02  5.085E+02 
   8.00000E-03  2.577E+02  2.485E+02 
   1.00000E-02  1.477E+02  1.411E+02 
   1.46194E-02  5.697E+01  5.296E+01 
L3 1.46194E-02  1.344E+02  1.042E+02 
   1.50000E-02  1.259E+02  9.807E+01 
   1.73371E-02  8.557E+01  6.851E+01 
L2 1.73371E-02  1.185E+02  8.724E+01 
   1.76895E-02  1.225E+02  8.366E+01 
   1.80490E-02  1.077E+02  8.002E+01 
L1 1.80490E-02  1.241E+02  9.130E+01 
   2.00000E-02  9.563E+01  7.231E+01 
   3.00000E-02  3.408E+01  2.760E+01 
   4.00000E-02  1.624E+01  1.342E+01 
   5.00000E-02  9.125E+00  7.552E+00 
   6.00000E-02  5.706E+00  4.686E+00 
   8.00000E-02  2.749E+00  2.185E+00 
   9.84040E-02  1.649E+00  1.258E+00 
K  9.84040E-02  6.371E+00  1.779E+00 
   1.00000E-01  6.086E+00  1.766E+00 
   1.50000E-01  2.215E+00  1.073E+00 
   2.00000E-01  1.101E+00  6.204E-01 
   3.00000E-01  4.420E-01  2.668E-01 
   4.00000E-01  2.518E-01  1.496E-01 
   5.00000E-01  1.728E-01  9.941E-02 
   6.00000E-01  1.322E-01  7.377E-02 
   8.00000E-01  9.230E-02  4.942E-02 
   1.00000E+00  7.303E-02  3.832E-02 
   1.25000E+00  5.984E-02  3.089E-02 
   1.50000E+00  5.290E-02  2.704E-02 
   2.00000E+00  4.649E-02  2.396E-02 
   3.00000E+00  4.264E-02  2.344E-02 
   4.00000E+00  4.224E-02  2.469E-02 
   5.00000E+00  4.298E-02  2.620E-02 
   6.00000E+00  4.418E-02  2.766E-02 
   8.00000E+00  4.705E-02  3.016E-02 
   1.00000E+01  5.007E-02  3.216E-02 
   1.50000E+01  5.704E-02  3.534E-02 
   2.00000E+01  6.260E-02  3.670E-02 
".

(** ries/nonresonant/nist_xrmac/87.txt, verbatim. *)
Definition xrmac_87 : string := "   1.00000E-03  6.238E+03  6.224E+03 
   1.07378E-03  5.356E+03  5.342E+03 
   1.15300E-03  4.673E+03  4.659E+03 
N1 1.15300E-03  4.772E+03  4.758E+03 
   1.50000E-03  2.846E+03  2.833E+03 
   2.00000E-03  1.562E+03  1.549E+03 
   2.99990E-03  6.414E+02  6.306E+02 
M5 2.99990E-03  1.995E+03  1.929E+03 
   3.00000E-03  1.994E+03  1.928E+03 
   3.13620E-03  1.449E+03  1.405E+03 
M4 3.13620E-03  2.255E+03  2.175E+03 
   3.38938E-03  1.761E+03  1.700E+03 
   3.66300E-03  1.415E+03  1.370E+03 
M3 3.66300E-03  1.641E+03  1.588E+03 
   4.00000E-03  1.322E+03  1.281E+03 
   4.32700E-03  1.086E+03  1.053E+03 
M2 4.32700E-03  1.153E+03  1.118E+03 
   4.48656E-03  1.059E+03  1.023E+03 
   4.65200E-03  9.666E+02  9.377E+02 
M1 4.65200E-03  1.008E+03  9.780E+02 
   5.00000E-03  8.489E+02  8.238E+02 
   6.00000E-03  5.451E+02  5.285E+02 
   8.00000E-03  2.684E+02  2.588E+02 
   1.00000E-02  1.539E+02  1.471E+02 
   1.50000E-02  5.573E+01  5.174E+01 
   1.50312E-02  5.544E+01  5.146E+01 
L3 1.50312E-02  1.304E+02  1.003E+02 
   1.64060E-02  1.031E+02  8.086E+01 
   1.79065E-02  8.184E+01  6.521E+01 
L2 1.79065E-02  1.137E+02  8.299E+01 
   1.82691E-02  1.179E+02  7.947E+01 
   1.86390E-02  1.031E+02  7.602E+01 
L1 1.86390E-02  1.187E+02  8.666E+01 
   2.00000E-02  9.933E+01  7.395E+01 
   3.00000E-02  3.550E+01  2.849E+01 
   4.00000E-02  1.694E+01  1.391E+01 
   5.00000E-02  9.525E+00  7.851E+00 
   6.00000E-02  5.959E+00  4.881E+00 
   8.00000E-02  2.871E+00  2.283E+00 
   1.00000E-01  1.655E+00  1.261E+00 
   1.01137E-01  1.610E+00  1.224E+00 
K  1.01137E-01  6.089E+00  1.710E+00 
   1.50000E-01  2.295E+00  1.087E+00 
   2.00000E-01  1.141E+00  6.351E-01 
   3.00000E-01  4.577E-01  2.750E-01 
   4.00000E-01  2.601E-01  1.542E-01 
   5.00000E-01  1.780E-01  1.025E-01 
   6.00000E-01  1.358E-01  7.597E-02 
   8.00000E-01  9.444E-02  5.067E-02 
   1.00000E+00  7.450E-02  3.920E-02 
   1.25000E+00  6.087E-02  3.151E-02 
   1.50000E+00  5.376E-02  2.752E-02 
   2.00000E+00  4.721E-02  2.432E-02 
   3.00000E+00  4.324E-02  2.372E-02 
   4.00000E+00  4.283E-02  2.495E-02 
   5.00000E+00  4.358E-02  2.644E-02 
   6.00000E+00  4.479E-02  2.788E-02 
   8.00000E+00  4.769E-02  3.033E-02 
   1.00000E+01  5.077E-02  3.227E-02 
   1.50000E+01  5.786E-02  3.525E-02 
   2.00000E+01  6.350E-02  3.641E-02 
".

(** ries/nonresonant/nist_xrmac/88.txt, verbatim. *)
Definition xrmac_88 : string := "   1.00000E-03  6.201E+03  6.187E+03 
   1.02840E-03  5.895E+03  5.881E+03 
   1.05760E-03  5.602E+03  5.588E+03 
N2 1.05760E-03  5.683E+03  5.669E+03 
   1.13049E-03  5.019E+03  5.005E+03 
   1.20840E-03  4.424E+03  4.411E+03 
N1 1.20840E-03  4.516E+03  4.502E+03 
   1.50000E-03  2.950E+03  2.937E+03 
   2.00000E-03  1.620E+03  1.608E+03 
   3.00000E-03  6.664E+02  6.555E+02 
   3.10490E-03  6.169E+02  6.061E+02 
M5 3.10490E-03  1.715E+03  1.657E+03 
   3.17584E-03  1.506E+03  1.457E+03 
   3.24840E-03  1.374E+03  1.331E+03 
M4 3.24840E-03  2.039E+03  1.965E+03 
   3.50960E-03  1.647E+03  1.587E+03 
   3.79180E-03  1.342E+03  1.297E+03 
M3 3.79180E-03  1.558E+03  1.506E+03 
   4.00000E-03  1.367E+03  1.322E+03 
   4.48950E-03  1.024E+03  9.917E+02 
M2 4.48950E-03  1.086E+03  1.052E+03 
   4.65278E-03  9.995E+02  9.643E+02 
   4.82200E-03  9.129E+02  8.846E+02 
M1 4.82200E-03  9.522E+02  9.228E+02 
   5.00000E-03  8.741E+02  8.472E+02 
   6.00000E-03  5.613E+02  5.438E+02 
   8.00000E-03  2.769E+02  2.669E+02 
   1.00000E-02  1.589E+02  1.519E+02 
   1.50000E-02  5.760E+01  5.353E+01 
   1.54444E-02  5.355E+01  4.962E+01 
L3 1.54444E-02  1.253E+02  9.581E+01 
   1.68961E-02  9.839E+01  7.677E+01 
   1.84843E-02  7.766E+01  6.160E+01 
L2 1.84843E-02  1.081E+02  7.835E+01 
   1.88568E-02  1.126E+02  7.500E+01 
   1.92367E-02  9.799E+01  7.175E+01 
L1 1.92367E-02  1.128E+02  8.172E+01 
   2.00000E-02  1.023E+02  7.496E+01 
   3.00000E-02  3.664E+01  2.913E+01 
   4.00000E-02  1.750E+01  1.429E+01 
   5.00000E-02  9.850E+00  8.088E+00 
   6.00000E-02  6.166E+00  5.039E+00 
   8.00000E-02  2.971E+00  2.363E+00 
   1.00000E-01  1.712E+00  1.308E+00 
   1.03922E-01  1.560E+00  1.181E+00 
K  1.03922E-01  5.826E+00  1.638E+00 
   1.50000E-01  2.355E+00  1.091E+00 
   2.00000E-01  1.172E+00  6.440E-01 
   3.00000E-01  4.696E-01  2.811E-01 
   4.00000E-01  2.662E-01  1.580E-01 
   5.00000E-01  1.817E-01  1.050E-01 
   6.00000E-01  1.383E-01  7.772E-02 
   8.00000E-01  9.579E-02  5.165E-02 
   1.00000E+00  7.535E-02  3.983E-02 
   1.25000E+00  6.141E-02  3.191E-02 
   1.50000E+00  5.415E-02  2.779E-02 
   2.00000E+00  4.751E-02  2.452E-02 
   3.00000E+00  4.348E-02  2.387E-02 
   4.00000E+00  4.304E-02  2.509E-02 
   5.00000E+00  4.379E-02  2.658E-02 
   6.00000E+00  4.500E-02  2.802E-02 
   8.00000E+00  4.793E-02  3.050E-02 
   1.00000E+01  5.102E-02  3.245E-02 
   1.50000E+01  5.815E-02  3.549E-02 
   2.00000E+01  6.383E-02  3.668E-02 
".

(** ries/nonresonant/nist_xrmac/89.txt, verbatim. *)
Definition xrmac_89 : string := "   1.00000E-03  6.469E+03  6.455E+03 
   1.03923E-03  6.034E+03  6.020E+03 
   1.08000E-03  5.622E+03  5.608E+03 
N2 1.08000E-03  5.702E+03  5.688E+03 
   1.17069E-03  4.905E+03  4.891E+03 
   1.26900E-03  4.203E+03  4.190E+03 
N1 1.26900E-03  4.289E+03  4.275E+03 
   1.50000E-03  3.082E+03  3.069E+03 
   2.00000E-03  1.696E+03  1.683E+03 
   3.00000E-03  6.981E+02  6.870E+02 
   3.21900E-03  5.959E+02  5.851E+02 
M5 3.21900E-03  1.537E+03  1.485E+03 
   3.29373E-03  1.404E+03  1.358E+03 
   3.37020E-03  1.307E+03  1.264E+03 
M4 3.37020E-03  1.892E+03  1.822E+03 
   3.62962E-03  1.564E+03  1.508E+03 
   3.90900E-03  1.296E+03  1.252E+03 
M3 3.90900E-03  1.504E+03  1.453E+03 
   4.00000E-03  1.426E+03  1.377E+03 
   4.65600E-03  9.745E+02  9.428E+02 
M2 4.65600E-03  1.034E+03  1.000E+03 
   5.00000E-03  8.687E+02  8.408E+02 
   5.00200E-03  8.678E+02  8.399E+02 
M1 5.00200E-03  9.051E+02  8.761E+02 
   6.00000E-03  5.829E+02  5.641E+02 
   8.00000E-03  2.878E+02  2.773E+02 
   1.00000E-02  1.653E+02  1.580E+02 
   1.50000E-02  6.002E+01  5.583E+01 
   1.58710E-02  5.213E+01  4.823E+01 
L3 1.58710E-02  1.214E+02  9.224E+01 
   1.74031E-02  1.042E+02  7.350E+01 
   1.90832E-02  7.426E+01  5.865E+01 
L2 1.90832E-02  1.036E+02  7.448E+01 
   1.94579E-02  1.079E+02  7.133E+01 
   1.98400E-02  9.403E+01  6.831E+01 
L1 1.98400E-02  1.082E+02  7.774E+01 
   2.00000E-02  1.062E+02  7.645E+01 
   3.00000E-02  3.811E+01  3.000E+01 
   4.00000E-02  1.823E+01  1.479E+01 
   5.00000E-02  1.027E+01  8.396E+00 
   6.00000E-02  6.433E+00  5.242E+00 
   8.00000E-02  3.100E+00  2.465E+00 
   1.00000E-01  1.786E+00  1.367E+00 
   1.06756E-01  1.525E+00  1.150E+00 
K  1.06756E-01  5.622E+00  1.582E+00 
   1.50000E-01  2.434E+00  1.100E+00 
   2.00000E-01  1.213E+00  6.581E-01 
   3.00000E-01  4.859E-01  2.896E-01 
   4.00000E-01  2.749E-01  1.632E-01 
   5.00000E-01  1.872E-01  1.085E-01 
   6.00000E-01  1.421E-01  8.018E-02 
   8.00000E-01  9.804E-02  5.311E-02 
   1.00000E+00  7.686E-02  4.080E-02 
   1.25000E+00  6.251E-02  3.258E-02 
   1.50000E+00  5.504E-02  2.831E-02 
   2.00000E+00  4.822E-02  2.490E-02 
   3.00000E+00  4.409E-02  2.419E-02 
   4.00000E+00  4.363E-02  2.539E-02 
   5.00000E+00  4.438E-02  2.688E-02 
   6.00000E+00  4.560E-02  2.832E-02 
   8.00000E+00  4.856E-02  3.079E-02 
   1.00000E+01  5.171E-02  3.275E-02 
   1.50000E+01  5.895E-02  3.575E-02 
   2.00000E+01  6.473E-02  3.692E-02 
".

(** ries/nonresonant/nist_xrmac/90.txt, verbatim. *)
Definition xrmac_90 : string := "   1.00000E-03  6.614E+03  6.600E+03 
   1.08088E-03  5.747E+03  5.733E+03 
   1.16830E-03  4.976E+03  4.962E+03 
N2 1.16830E-03  5.048E+03  5.034E+03 
   1.24630E-03  4.463E+03  4.449E+03 
   1.32950E-03  3.937E+03  3.924E+03 
N1 1.32950E-03  4.017E+03  4.003E+03 
   1.50000E-03  3.161E+03  3.148E+03 
   2.00000E-03  1.742E+03  1.729E+03 
   3.00000E-03  7.180E+02  7.070E+02 
   3.33200E-03  5.671E+02  5.565E+02 
M5 3.33200E-03  1.394E+03  1.346E+03 
   3.41048E-03  1.304E+03  1.260E+03 
   3.49080E-03  1.226E+03  1.185E+03 
M4 3.49080E-03  1.749E+03  1.683E+03 
   4.00000E-03  1.253E+03  1.208E+03 
   4.04610E-03  1.217E+03  1.174E+03 
M3 4.04610E-03  1.415E+03  1.364E+03 
   4.42089E-03  1.137E+03  1.098E+03 
   4.83040E-03  9.103E+02  8.797E+02 
M2 4.83040E-03  9.655E+02  9.330E+02 
   5.00000E-03  8.878E+02  8.581E+02 
   5.18230E-03  8.129E+02  7.859E+02 
M1 5.18230E-03  8.477E+02  8.196E+02 
   6.00000E-03  5.945E+02  5.749E+02 
   8.00000E-03  2.939E+02  2.830E+02 
   1.00000E-02  1.689E+02  1.615E+02 
   1.50000E-02  6.141E+01  5.718E+01 
   1.63003E-02  4.991E+01  4.611E+01 
L3 1.63003E-02  1.156E+02  8.732E+01 
   1.79166E-02  9.924E+01  6.924E+01 
   1.96932E-02  6.984E+01  5.492E+01 
L2 1.96932E-02  9.527E+01  6.836E+01 
   2.00000E-02  9.368E+01  6.714E+01 
   2.04721E-02  8.851E+01  6.383E+01 
L1 2.04721E-02  1.018E+02  7.259E+01 
   3.00000E-02  3.892E+01  3.032E+01 
   4.00000E-02  1.865E+01  1.503E+01 
   5.00000E-02  1.052E+01  8.558E+00 
   6.00000E-02  6.592E+00  5.355E+00 
   8.00000E-02  3.178E+00  2.526E+00 
   1.00000E-01  1.830E+00  1.403E+00 
   1.09651E-01  1.465E+00  1.100E+00 
K  1.09651E-01  5.336E+00  1.502E+00 
   1.50000E-01  2.472E+00  1.090E+00 
   2.00000E-01  1.234E+00  6.603E-01 
   3.00000E-01  4.939E-01  2.931E-01 
   4.00000E-01  2.789E-01  1.656E-01 
   5.00000E-01  1.895E-01  1.101E-01 
   6.00000E-01  1.435E-01  8.128E-02 
   8.00000E-01  9.861E-02  5.366E-02 
   1.00000E+00  7.709E-02  4.109E-02 
   1.25000E+00  6.251E-02  3.269E-02 
   1.50000E+00  5.498E-02  2.834E-02 
   2.00000E+00  4.812E-02  2.487E-02 
   3.00000E+00  4.396E-02  2.411E-02 
   4.00000E+00  4.347E-02  2.528E-02 
   5.00000E+00  4.421E-02  2.674E-02 
   6.00000E+00  4.542E-02  2.817E-02 
   8.00000E+00  4.836E-02  3.060E-02 
   1.00000E+01  5.149E-02  3.253E-02 
   1.50000E+01  5.871E-02  3.550E-02 
   2.00000E+01  6.447E-02  3.664E-02 
".

(** ries/nonresonant/nist_xrmac/91.txt, verbatim. *)
Definition xrmac_91 : string := "   1.00000E-03  6.530E+03  6.515E+03 
   1.00334E-03  6.490E+03  6.476E+03 
   1.00670E-03  6.451E+03  6.437E+03 
N3 1.00670E-03  6.868E+03  6.853E+03 
   1.11018E-03  5.755E+03  5.740E+03 
   1.22430E-03  4.794E+03  4.780E+03 
N2 1.22430E-03  4.863E+03  4.848E+03 
   1.30316E-03  4.311E+03  4.296E+03 
   1.38710E-03  3.815E+03  3.801E+03 
N1 1.38710E-03  3.891E+03  3.877E+03 
   1.50000E-03  3.327E+03  3.313E+03 
   2.00000E-03  1.834E+03  1.821E+03 
   3.00000E-03  7.558E+02  7.444E+02 
   3.44180E-03  5.548E+02  5.440E+02 
M5 3.44180E-03  1.363E+03  1.314E+03 
   3.52548E-03  1.266E+03  1.222E+03 
   3.61120E-03  1.185E+03  1.144E+03 
M4 3.61120E-03  1.695E+03  1.628E+03 
   4.00000E-03  1.315E+03  1.265E+03 
   4.17380E-03  1.182E+03  1.139E+03 
M3 4.17380E-03  1.374E+03  1.324E+03 
   5.00000E-03  8.759E+02  8.454E+02 
   5.00090E-03  8.755E+02  8.450E+02 
M2 5.00090E-03  9.288E+02  8.964E+02 
   5.18067E-03  8.514E+02  8.219E+02 
   5.36690E-03  7.810E+02  7.541E+02 
M1 5.36690E-03  8.144E+02  7.864E+02 
   6.00000E-03  6.217E+02  6.004E+02 
   8.00000E-03  3.074E+02  2.958E+02 
   1.00000E-02  1.769E+02  1.690E+02 
   1.50000E-02  6.442E+01  6.000E+01 
   1.67331E-02  4.903E+01  4.522E+01 
L3 1.67331E-02  1.130E+02  8.483E+01 
   2.00000E-02  7.025E+01  5.486E+01 
   2.03137E-02  6.747E+01  5.284E+01 
L2 2.03137E-02  9.452E+01  6.704E+01 
   2.07054E-02  8.995E+01  6.418E+01 
   2.11046E-02  8.576E+01  6.153E+01 
L1 2.11046E-02  9.861E+01  6.990E+01 
   3.00000E-02  4.077E+01  3.146E+01 
   4.00000E-02  1.957E+01  1.567E+01 
   5.00000E-02  1.105E+01  8.950E+00 
   6.00000E-02  6.929E+00  5.612E+00 
   8.00000E-02  3.342E+00  2.655E+00 
   1.00000E-01  1.924E+00  1.477E+00 
   1.12601E-01  1.445E+00  1.081E+00 
K  1.12601E-01  5.198E+00  1.466E+00 
   1.50000E-01  2.575E+00  1.106E+00 
   2.00000E-01  1.288E+00  6.792E-01 
   3.00000E-01  5.152E-01  3.042E-01 
   4.00000E-01  2.904E-01  1.723E-01 
   5.00000E-01  1.969E-01  1.146E-01 
   6.00000E-01  1.487E-01  8.453E-02 
   8.00000E-01  1.018E-01  5.563E-02 
   1.00000E+00  7.937E-02  4.247E-02 
   1.25000E+00  6.420E-02  3.367E-02 
   1.50000E+00  5.637E-02  2.911E-02 
   2.00000E+00  4.927E-02  2.547E-02 
   3.00000E+00  4.496E-02  2.463E-02 
   4.00000E+00  4.445E-02  2.580E-02 
   5.00000E+00  4.519E-02  2.727E-02 
   6.00000E+00  4.641E-02  2.870E-02 
   8.00000E+00  4.943E-02  3.117E-02 
   1.00000E+01  5.261E-02  3.311E-02 
   1.50000E+01  6.000E-02  3.609E-02 
   2.00000E+01  6.592E-02  3.724E-02 
".

(** ries/nonresonant/nist_xrmac/92.txt, verbatim. *)
Definition xrmac_92 : string := "   1.00000E-03  6.626E+03  6.612E+03 
   1.02220E-03  6.375E+03  6.360E+03 
   1.04490E-03  6.127E+03  6.112E+03 
N3 1.04490E-03  6.519E+03  6.504E+03 
   1.15314E-03  5.446E+03  5.431E+03 
   1.27260E-03  4.526E+03  4.511E+03 
N2 1.27260E-03  4.589E+03  4.575E+03 
   1.35409E-03  4.065E+03  4.051E+03 
   1.44080E-03  3.598E+03  3.584E+03 
N1 1.44080E-03  3.668E+03  3.654E+03 
   1.50000E-03  3.382E+03  3.368E+03 
   2.00000E-03  1.865E+03  1.852E+03 
   3.00000E-03  7.692E+02  7.578E+02 
   3.55170E-03  5.257E+02  5.151E+02 
M5 3.55170E-03  1.266E+03  1.220E+03 
   3.63859E-03  1.188E+03  1.142E+03 
   3.72760E-03  1.112E+03  1.072E+03 
M4 3.72760E-03  1.582E+03  1.517E+03 
   4.00000E-03  1.329E+03  1.277E+03 
   4.30340E-03  1.110E+03  1.068E+03 
M3 4.30340E-03  1.292E+03  1.242E+03 
   5.00000E-03  8.891E+02  8.569E+02 
   5.18220E-03  8.118E+02  7.825E+02 
M2 5.18220E-03  8.611E+02  8.301E+02 
   5.36198E-03  7.915E+02  7.632E+02 
   5.54800E-03  7.282E+02  7.022E+02 
M1 5.54800E-03  7.592E+02  7.322E+02 
   6.00000E-03  6.284E+02  6.062E+02 
   8.00000E-03  3.108E+02  2.989E+02 
   1.00000E-02  1.791E+02  1.711E+02 
   1.50000E-02  6.528E+01  6.084E+01 
   1.71663E-02  4.663E+01  4.293E+01 
L3 1.71663E-02  1.070E+02  7.980E+01 
   2.00000E-02  7.106E+01  5.496E+01 
   2.09476E-02  6.300E+01  4.914E+01 
L2 2.09476E-02  8.838E+01  6.222E+01 
   2.13487E-02  9.515E+01  5.959E+01 
   2.17574E-02  8.023E+01  5.715E+01 
L1 2.17574E-02  9.222E+01  6.487E+01 
   3.00000E-02  4.128E+01  3.149E+01 
   4.00000E-02  1.983E+01  1.576E+01 
   5.00000E-02  1.121E+01  9.034E+00 
   6.00000E-02  7.035E+00  5.678E+00 
   8.00000E-02  3.395E+00  2.695E+00 
   1.00000E-01  1.954E+00  1.502E+00 
   1.15606E-01  1.378E+00  1.027E+00 
K  1.15606E-01  4.893E+00  1.382E+00 
   1.50000E-01  2.591E+00  1.083E+00 
   2.00000E-01  1.298E+00  6.746E-01 
   3.00000E-01  5.192E-01  3.050E-01 
   4.00000E-01  2.922E-01  1.732E-01 
   5.00000E-01  1.976E-01  1.152E-01 
   6.00000E-01  1.490E-01  8.494E-02 
   8.00000E-01  1.016E-01  5.574E-02 
   1.00000E+00  7.896E-02  4.241E-02 
   1.25000E+00  6.370E-02  3.351E-02 
   1.50000E+00  5.587E-02  2.891E-02 
   2.00000E+00  4.878E-02  2.523E-02 
   3.00000E+00  4.447E-02  2.434E-02 
   4.00000E+00  4.392E-02  2.546E-02 
   5.00000E+00  4.463E-02  2.689E-02 
   6.00000E+00  4.583E-02  2.829E-02 
   8.00000E+00  4.879E-02  3.068E-02 
   1.00000E+01  5.195E-02  3.259E-02 
   1.50000E+01  5.927E-02  3.552E-02 
   2.00000E+01  6.512E-02  3.662E-02 
".

(** The files for Z = 1, ..., 92, in this order. *)
Definition xrmac_files : list string :=
  [xrmac_01; xrmac_02; xrmac_03; xrmac_04; xrmac_05; xrmac_06; xrmac_07; xrmac_08;
   xrmac_09; xrmac_10; xrmac_11; xrmac_12; xrmac_13; xrmac_14; xrmac_15; xrmac_16;
   xrmac_17; xrmac_18; xrmac_19; xrmac_20; xrmac_21; xrmac_22; xrmac_23; xrmac_24;
   xrmac_25; xrmac_26; xrmac_27; xrmac_28; xrmac_29; xrmac_30; xrmac_31; xrmac_32;
   xrmac_33; xrmac_34; xrmac_35; xrmac_36; xrmac_37; xrmac_38; xrmac_39; xrmac_40;
   xrmac_41; xrmac_42; xrmac_43; xrmac_44; xrmac_45; xrmac_46; xrmac_47; xrmac_48;
   xrmac_49; xrmac_50; xrmac_51; xrmac_52; xrmac_53; xrmac_54; xrmac_55; xrmac_56;
   xrmac_57; xrmac_58; xrmac_59; xrmac_60; xrmac_61; xrmac_62; xrmac_63; xrmac_64;
   xrmac_65; xrmac_66; xrmac_67; xrmac_68; xrmac_69; xrmac_70; xrmac_71; xrmac_72;
   xrmac_73; xrmac_74; xrmac_75; xrmac_76; xrmac_77; xrmac_78; xrmac_79; xrmac_80;
   xrmac_81; xrmac_82; xrmac_83; xrmac_84; xrmac_85; xrmac_86; xrmac_87; xrmac_88;
   xrmac_89; xrmac_90; xrmac_91; xrmac_92].
