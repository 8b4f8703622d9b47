(** * Evaluation of line weights. /repo/src/module/weight/component.h, component_MC.cpp

    The contents of the tables are arbitrary; the vertex-correction tables
    (GGGammaGWeight->Weight, WWGammaWWeight->Weight; gamma3.cpp) are arbitrary functions.
    [None] there stands for the uninitialised pointer members of GClass/WClass
    (component.h, weight.cpp): calling through them is UB. *)
From Coq Require Import ZArith List Bool.
From Verif Require Import Base Num Complex Lattice IndexMap.
Open Scope Z_scope.

Section Weights.
Context {N : Num}.

(** ExtPoint, component.h:21-26 *)
Record extpt := mkExt { ex_R : site; ex_T : real; ex_S : spin }.

Definition gammaG_fun := site -> site -> site -> real -> real -> real -> spin -> spin -> spin -> cplx.
Definition gammaW_fun :=
  site -> site -> site -> real -> real -> real -> (dir -> spin) -> (dir -> spin) -> spin -> cplx.

(** The weight objects G and W (component.h:50-103) and the normalisation constant
    Norm::NormFactor (component.h:36-43). *)
Record tables := mkTab {
  gmap : imap; wmap : imap;
  g_smooth : Z -> cplx; g_meast : Z -> cplx;
  w_smooth : Z -> cplx; w_deltat : Z -> cplx; w_meast : Z -> cplx;
  t_gammaG : option gammaG_fun; t_gammaW : option gammaW_fun;
  normF : real }.

(** SPINUPUP, component_MC.cpp:15 *)
Definition upup : dir -> spin := fun _ => UP.

(** Worm::Weight, component.h:28-34 *)
Definition WormWeight : real := rofZ 1.

(** GClass::Weight (ordered ends), component_MC.cpp:17-32 *)
Definition GWeight (T : tables) (rin rout : site) (tin tout : real) (sin sout : spin)
  (ismeas isgg : bool) (ext : extpt) : outcome cplx :=
  obind (GetIndexSmooth (gmap T) (spinZ sin) (spinZ sout) rin rout tin tout) (fun idx =>
  if ismeas then Ok (g_meast T idx)
  else if isgg then
    match t_gammaG T with
    | Some f => Ok (f rin rout (ex_R ext) tin tout (ex_T ext) sin sout (ex_S ext))
    | None => UB
    end
  else Ok (rmul_c (rofZ (TauSym (gmap T) tin tout)) (g_smooth T idx))).

(** GClass::Weight (with direction of the first end), component_MC.cpp:34-62 *)
Definition GWeightDir (T : tables) (d : dir) (ra rb : site) (ta tb : real) (sa sb : spin)
  (ismeas isgg : bool) (ext : extpt) : outcome cplx :=
  obind (match d with
         | IN => GetIndexSmooth (gmap T) (spinZ sa) (spinZ sb) ra rb ta tb
         | OUT => GetIndexSmooth (gmap T) (spinZ sb) (spinZ sa) rb ra tb ta
         end) (fun idx =>
  let symm := match d with
              | IN => TauSym (gmap T) ta tb
              | OUT => TauSym (gmap T) tb ta
              end in
  if ismeas then Ok (g_meast T idx)
  else if isgg then
    match t_gammaG T with
    | Some f =>
        match d with
        | IN => Ok (f ra rb (ex_R ext) ta tb (ex_T ext) sa sb (ex_S ext))
        | OUT => Ok (f rb ra (ex_R ext) tb ta (ex_T ext) sb sa (ex_S ext))
        end
    | None => UB
    end
  else Ok (rmul_c (rofZ symm) (g_smooth T idx))).

(** WClass::Weight (ordered ends), component_MC.cpp:64-85. A delta line is looked up in
    the delta table before the measuring flag is considered. *)
Definition WWeight (T : tables) (rin rout : site) (tin tout : real) (sin0 sout0 : dir -> spin)
  (isworm ismeas isdelta isww : bool) (ext : extpt) : outcome cplx :=
  let sin := if isworm then upup else sin0 in
  let sout := if isworm then upup else sout0 in
  if isdelta then
    obind (GetIndexDelta (wmap T) (spin4 sin) (spin4 sout) rin rout) (fun idx => Ok (w_deltat T idx))
  else
    obind (GetIndexSmooth (wmap T) (spin4 sin) (spin4 sout) rin rout tin tout) (fun idx =>
    if ismeas then Ok (w_meast T idx)
    else if isww then
      match t_gammaW T with
      | Some f => Ok (f rin rout (ex_R ext) tin tout (ex_T ext) sin sout (ex_S ext))
      | None => UB
      end
    else Ok (w_smooth T idx)).

(** WClass::Weight (with direction of the first end), component_MC.cpp:87-117. Here the
    measuring flag is tested first; for a line that is both delta and measuring the
    delta index is used in the measuring table. *)
Definition WWeightDir (T : tables) (d : dir) (ra rb : site) (ta tb : real) (sa0 sb0 : dir -> spin)
  (isworm ismeas isdelta isww : bool) (ext : extpt) : outcome cplx :=
  let sa := if isworm then upup else sa0 in
  let sb := if isworm then upup else sb0 in
  obind (match d with
         | IN => if isdelta then GetIndexDelta (wmap T) (spin4 sa) (spin4 sb) ra rb
                 else GetIndexSmooth (wmap T) (spin4 sa) (spin4 sb) ra rb ta tb
         | OUT => if isdelta then GetIndexDelta (wmap T) (spin4 sb) (spin4 sa) rb ra
                  else GetIndexSmooth (wmap T) (spin4 sb) (spin4 sa) rb ra tb ta
         end) (fun idx =>
  if ismeas then Ok (w_meast T idx)
  else if isdelta then Ok (w_deltat T idx)
  else if isww then
    match t_gammaW T with
    | Some f =>
        match d with
        | IN => Ok (f ra rb (ex_R ext) ta tb (ex_T ext) sa sb (ex_S ext))
        | OUT => Ok (f rb ra (ex_R ext) tb ta (ex_T ext) sb sa (ex_S ext))
        end
    | None => UB
    end
  else Ok (w_smooth T idx)).
End Weights.
