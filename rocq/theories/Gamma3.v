(** * Three-point functions. /repo/src/module/weight/gamma3.h, gamma3.cpp and the parts of
    weight.cpp that create them. *)
From Coq Require Import ZArith List Bool.
From Verif Require Import Base Num Complex Lattice IndexMap WeightEstimator.
Import ListNotations.
Open Scope Z_scope.

Section G3.
Context {N : Num}.

(** [a(i)], weight_array.h:46: operator() is unchecked *)
Definition waGet (i : Z) (a : warray) : outcome cplx :=
  if i <? 0 then UB else match nth_error (wa_data a) (Z.to_nat i) with Some c => Ok c | None => UB end.
(** FromDict, weight_array.cpp:73-80, with Assign (pointer), 26-32: [_Size] entries are read *)
Definition waLoad (shp : list Z) (data : list cplx) (a : warray) : outcome warray :=
  obind (eq_upto (List.length (wa_shape a)) shp (wa_shape a)) (fun b =>
  if b then
    if (List.length data <? List.length (wa_data a))%nat then UB
    else Ok (mkWA (wa_shape a) (firstn (List.length (wa_data a)) data))
  else Abort).

(** the time difference brought into [0, Beta), gamma3.cpp:44-48 (also 51-55, 104-115, 302-313,
    385-396); the flag says that Beta was added *)
Definition wrapTau (beta t : real) : real * bool := if rltb t (rofZ 0) then (radd t beta, true) else (t, false).
(** the bin number, gamma3.cpp:49, with [_dBetaInverse], 20 and 179 *)
Definition binTau (beta : real) (mt : Z) (t : real) : Z := rfloor (rmul (fst (wrapTau beta t)) (rdiv (rofZ mt) beta)).
(** the sign kept along, gamma3.cpp:43-56: [real sign = 1; ... sign = -sign] *)
Definition flips (a b : bool) : real :=
  let s := rofZ 1 in let s := if a then rneg s else s in if b then rneg s else s.

(** ** GammaGClass, gamma3.h:23-66. [_Map] is read for its lattice only. *)
Record ggam := mkGG { gg_beta : real; gg_mt : Z; gg_lat : lattice; gg_norm : real; gg_nacc : real; gg_w : warray; gg_accu : warray }.
(** ClearStatistics, gamma3.cpp:122-126 *)
Definition ggClear (g : ggam) : ggam :=
  mkGG (gg_beta g) (gg_mt g) (gg_lat g) (gg_norm g) (rofZ 0) (gg_w g) (waFill c0 (gg_accu g)).
(** GammaGClass(lat, beta, MaxTauBin, Norm), gamma3.cpp:14-36; pow(x, 2.0) is written x*x.
    Vol (int) converts to uint in the shape. *)
Definition ggNew (L : lattice) (beta : real) (mt : Z) (norm : real) : ggam :=
  let q := rdiv (rofZ mt) beta in
  let a := waAllocate [2; u32 (Vol L); mt; mt] in
  ggClear (mkGG beta mt L (rdiv (rdiv (rmul norm (rmul q q)) beta) (rofZ (Vol L))) (rofZ 0) a a).
(** the index, gamma3.cpp:67 and 118 (uint arithmetic; _CacheIndex, 31-34) *)
Definition ggIndex (g : ggam) (rin ur : site) (tin tout ut : real) (s : spin) : Z :=
  u32 (spinZ s * u32 (gg_mt g * gg_mt g * Vol (gg_lat g)) + CoordiIndex (gg_lat g) rin ur * u32 (gg_mt g * gg_mt g)
       + binTau (gg_beta g) (gg_mt g) (rsub tout ut) * gg_mt g + binTau (gg_beta g) (gg_mt g) (rsub tin ut)).
Definition ggSign (g : ggam) (tin tout ut : real) : real :=
  flips (snd (wrapTau (gg_beta g) (rsub tout ut))) (snd (wrapTau (gg_beta g) (rsub tin ut))).
(** Weight, gamma3.cpp:38-69. Gr_out, Gspin_out and Uspin are not used. *)
Definition ggWeight (rin ur : site) (tin tout ut : real) (s : spin) (g : ggam) : outcome cplx :=
  obind (waGet (ggIndex g rin ur tin tout ut s) (gg_w g)) (fun c => Ok (cmul_r c (ggSign g tin tout ut))).
(** MeasureNorm, gamma3.cpp:71-74 *)
Definition ggMeasureNorm (x : real) (g : ggam) : ggam :=
  mkGG (gg_beta g) (gg_mt g) (gg_lat g) (gg_norm g) (radd (gg_nacc g) x) (gg_w g) (gg_accu g).
(** Measure, gamma3.cpp:76-120 *)
Definition ggMeasure (rin ur : site) (tin tout ut : real) (s : spin) (w : cplx) (g : ggam) : outcome ggam :=
  obind (waAdd (ggIndex g rin ur tin tout ut s) (cmul_r w (ggSign g tin tout ut)) (gg_accu g)) (fun a =>
  Ok (mkGG (gg_beta g) (gg_mt g) (gg_lat g) (gg_norm g) (gg_nacc g) (gg_w g) a)).
(** SqueezeStatistics, gamma3.cpp:129-134 *)
Definition ggSqueeze (f : real) (g : ggam) : outcome ggam :=
  if rltb (rofZ 0) f
  then Ok (mkGG (gg_beta g) (gg_mt g) (gg_lat g) (gg_norm g) (rdiv (gg_nacc g) f) (gg_w g) (waScale (rdiv (rofZ 1) f) (gg_accu g)))
  else Abort.
(** WeightFromDict, gamma3.cpp:138-141 *)
Definition ggWeightFromDict (shp : list Z) (data : list cplx) (g : ggam) : outcome ggam :=
  obind (waLoad shp data (gg_w g)) (fun a =>
  Ok (mkGG (gg_beta g) (gg_mt g) (gg_lat g) (gg_norm g) (gg_nacc g) a (gg_accu g))).
(** StatisToDict, gamma3.cpp:155-162, and StatisFromDict, 143-153 *)
Definition ggStatisToDict (g : ggam) : wfile := mkWF (gg_norm g) (gg_nacc g) (wa_shape (gg_accu g)) (wa_data (gg_accu g)).
Definition ggStatisFromDict (f : wfile) (g : ggam) : outcome ggam :=
  obind (eq_upto 3 (tl (wf_shape f)) (tl (wa_shape (gg_accu g)))) (fun b =>
  if b then
    let n := Z.to_nat (prod32 (wf_shape f)) in
    if (List.length (wf_data f) <? n)%nat then UB
    else obind (waCopy (firstn n (wf_data f)) (waFill c0 (gg_accu g))) (fun a =>
         Ok (mkGG (gg_beta g) (gg_mt g) (gg_lat g) (wf_norm f) (wf_nacc f) (gg_w g) a))
  else Abort).

(** ** GammaWClass, gamma3.h:68-124. [gw_nacc = None]: [_NormAccu] has not been written yet (the
    constructor does not, line 211); [gw_w], [gw_accu = None]: not allocated. Members that are
    never read again are left out. *)
Record gwam := mkGW { gw_beta : real; gw_mt : Z; gw_lat : lattice; gw_norm : real; gw_nacc : option real;
  gw_rsq : list Z; gw_rsym : list Z; gw_tsq : list Z; gw_tsym : list Z; gw_tflag : list Z;
  gw_rsize : Z; gw_tsize : Z; gw_w : option warray; gw_accu : option warray }.
Definition s_gw_nacc (g : gwam) x := mkGW (gw_beta g) (gw_mt g) (gw_lat g) (gw_norm g) x (gw_rsq g) (gw_rsym g) (gw_tsq g) (gw_tsym g)
  (gw_tflag g) (gw_rsize g) (gw_tsize g) (gw_w g) (gw_accu g).
Definition s_gw_accu (g : gwam) x := mkGW (gw_beta g) (gw_mt g) (gw_lat g) (gw_norm g) (gw_nacc g) (gw_rsq g) (gw_rsym g) (gw_tsq g) (gw_tsym g)
  (gw_tflag g) (gw_rsize g) (gw_tsize g) (gw_w g) x.
(** GammaWClass(lat, beta, MaxTauBinTiny, basis, Norm), gamma3.cpp:170-212. _RSize and _TauSize
    are uninitialised until WeightFromDict (0 here; nothing reads them before). The basis is
    given by its number of vectors: [_BasisVec[0]] (190) is read unchecked. *)
Definition gwNew (L : lattice) (beta : real) (mt : Z) (nbasis : nat) (norm : real) : outcome gwam :=
  let q := rdiv (rofZ mt) beta in
  match nbasis with
  | O => UB
  | S _ => Ok (mkGW beta mt L (rdiv (rdiv (rmul norm (rmul q q)) beta) (rofZ (Vol L))) None [] [] [] [] [] 0 0 None None)
  end.
(** _SpinIndex, gamma3.cpp:214-229; [None] is (uint)-1. L[0] is L[IN]. *)
Definition gwSpinIndex (L R : dir -> spin) : option Z :=
  match L IN, L OUT, R IN, R OUT with
  | UP, UP, UP, UP => Some 0
  | DOWN, DOWN, DOWN, DOWN => Some 1
  | UP, UP, DOWN, DOWN => Some 2
  | DOWN, DOWN, UP, UP => Some 3
  | UP, DOWN, DOWN, UP => Some 4
  | DOWN, UP, UP, DOWN => Some 5
  | _, _, _, _ => None
  end.
(** std::vector<int>::operator[] is unchecked *)
Definition vat (l : list Z) (i : Z) : outcome Z :=
  if i <? 0 then UB else match nth_error l (Z.to_nat i) with Some x => Ok x | None => UB end.
(** coordiIndex, gamma3.cpp:298-300 and 381-383; tIndex, 302-315 and 385-398 (uint) *)
Definition gwCoord (g : gwam) (rin rout ur : site) : Z :=
  u32 (CoordiIndex (gw_lat g) rout ur * u32 (Vol (gw_lat g)) + CoordiIndex (gw_lat g) rin ur).
Definition gwTau (g : gwam) (tin tout ut : real) : Z :=
  u32 (binTau (gw_beta g) (gw_mt g) (rsub tout ut) * gw_mt g + binTau (gw_beta g) (gw_mt g) (rsub tin ut)).
(** Index, gamma3.cpp:317-322 and 400-404: (uint)-1 >= 4 *)
Definition gwIndex (g : gwam) (rin rout ur : site) (tin tout ut : real) (si : option Z) : outcome Z :=
  obind (vat (gw_rsq g) (gwCoord g rin rout ur)) (fun a =>
  obind (vat (gw_tsq g) (gwTau g tin tout ut)) (fun b =>
  let i := u32 (a * gw_tsize g + b) in
  Ok (if match si with Some n => 4 <=? n | None => true end then u32 (i + gw_rsize g * gw_tsize g) else i))).
(** Weight, gamma3.cpp:295-342; Uspin is not used *)
Definition gwWeight (rin rout ur : site) (tin tout ut : real) (sin sout : dir -> spin) (g : gwam) : outcome cplx :=
  let si := gwSpinIndex sout sin in
  obind (gwIndex g rin rout ur tin tout ut si) (fun i =>
  match gw_w g with
  | None => UB
  | Some a =>
    obind (waGet i a) (fun w =>
    obind (vat (gw_tflag g) (gwTau g tin tout ut)) (fun fl =>
    let w := if fl =? 0 then w else cneg (conj w) in
    Ok (match si with
        | Some 0 | Some 1 => w
        | Some 2 | Some 3 => cneg w
        | Some 4 => cneg (conj w)
        | _ => w
        end)))
  end).
(** Measure, gamma3.cpp:378-423; [Weight/SymmetryFactor] converts the int to real *)
Definition gwMeasure (rin rout ur : site) (tin tout ut : real) (sin sout : dir -> spin) (w0 : cplx) (g : gwam) : outcome gwam :=
  let si := gwSpinIndex sout sin in
  obind (gwIndex g rin rout ur tin tout ut si) (fun i =>
  obind (vat (gw_rsym g) (gwCoord g rin rout ur)) (fun a =>
  obind (vat (gw_tsym g) (gwTau g tin tout ut)) (fun b =>
  obind (vat (gw_tflag g) (gwTau g tin tout ut)) (fun fl =>
  if negb (int_ok (a * b)) then UB else
  let w := cdiv_r w0 (rofZ (a * b)) in
  let w := if fl =? 0 then w else cneg (conj w) in
  let add x := match gw_accu g with
               | None => UB
               | Some ac => obind (waAdd i x ac) (fun ac => Ok (s_gw_accu g (Some ac)))
               end in
  match si with
  | Some 0 | Some 1 => add w
  | Some 2 | Some 3 => add (cneg w)
  | Some 4 => add (cdiv_r w (rofZ 2))
  | Some 5 => add (cdiv_r (cneg (conj w)) (rofZ 2))
  | _ => Ok g
  end)))).
(** MeasureNorm, gamma3.cpp:464-467: reads [_NormAccu] *)
Definition gwMeasureNorm (x : real) (g : gwam) : outcome gwam :=
  match gw_nacc g with None => UB | Some y => Ok (s_gw_nacc g (Some (radd y x))) end.
(** ClearStatistics, gamma3.cpp:469-473; Assign aborts when the array is not allocated *)
Definition gwClear (g : gwam) : outcome gwam :=
  match gw_accu g with None => Abort | Some a => Ok (s_gw_accu (s_gw_nacc g (Some (rofZ 0))) (Some (waFill c0 a))) end.
(** SqueezeStatistics, gamma3.cpp:476-481 *)
Definition gwSqueeze (f : real) (g : gwam) : outcome gwam :=
  if rltb (rofZ 0) f then
    match gw_nacc g, gw_accu g with
    | Some y, Some a => Ok (s_gw_accu (s_gw_nacc g (Some (rdiv y f))) (Some (waScale (rdiv (rofZ 1) f) a)))
    | _, _ => UB
    end
  else Abort.
(** WeightFromDict, gamma3.cpp:485-517. The array "SmoothT" is optional; RSize and TauSize are uint. *)
Record gwdict := mkGWD { gd_rsq : list Z; gd_rsym : list Z; gd_tsq : list Z; gd_tsym : list Z; gd_tflag : list Z;
  gd_rsize : Z; gd_tsize : Z; gd_smooth : option (list Z * list cplx) }.
Definition gwWeightFromDict (f : gwdict) (g : gwam) : outcome gwam :=
  let V2 := u32 (u32 (Vol (gw_lat g)) * u32 (Vol (gw_lat g))) in
  let T2 := u32 (gw_mt g * gw_mt g) in
  let has n l := Z.of_nat (List.length l) =? n in
  if has V2 (gd_rsq f) && has V2 (gd_rsym f) && has T2 (gd_tsq f) && has T2 (gd_tsym f) && has T2 (gd_tflag f) then
    let alloc a := match a with Some x => x | None => waAllocate [2; gd_rsize f; gd_tsize f] end in
    obind (match gd_smooth f with
           | None => Ok (alloc (gw_w g))
           | Some (shp, data) => waLoad shp data (alloc (gw_w g))
           end) (fun w =>
    Ok (mkGW (gw_beta g) (gw_mt g) (gw_lat g) (gw_norm g) (gw_nacc g) (gd_rsq f) (gd_rsym f) (gd_tsq f) (gd_tsym f) (gd_tflag f)
             (gd_rsize f) (gd_tsize f) (Some w) (Some (alloc (gw_accu g)))))
  else Abort.

(** ** Creation and loading by weight::Weight. A pointer member is uninitialised, null or points
    to an object. The constructor, weight.cpp:18-25, leaves GammaG and GammaW uninitialised
    (the object is a local variable, main.cpp:52); reading them then is UB. *)
Inductive ptr (A : Type) : Type := PWild | PNull | PAt (a : A).
Arguments PWild {A}. Arguments PNull {A}. Arguments PAt {A} a.
(** _AllocateGammaGW, weight.cpp:174-181: only null pointers are filled *)
Definition allocGammaG (L : lattice) (beta : real) (mt : Z) (norm : real) (p : ptr ggam) : outcome ggam :=
  match p with PWild => UB | PAt g => Ok g | PNull => Ok (ggNew L beta mt norm) end.
Definition allocGammaW (L : lattice) (beta : real) (mt : Z) (nbasis : nat) (norm : real) (p : ptr gwam) : outcome gwam :=
  match p with PWild => UB | PAt g => Ok g | PNull => gwNew L beta mt nbasis norm end.
(** Weight::FromDict with flag GammaGW, weight.cpp:85-99: GGGammaG is optional, WWGammaW is not *)
Definition loadGammaGW (L : lattice) (beta : real) (mt mtt : Z) (nbasis : nat) (norm : real)
  (fG : option (list Z * list cplx)) (fW : option gwdict) (pg : ptr ggam) (pw : ptr gwam) : outcome (ggam * gwam) :=
  obind (allocGammaG L beta mt norm pg) (fun g =>
  obind (allocGammaW L beta mtt nbasis norm pw) (fun w =>
  obind (match fG with None => Ok g | Some (shp, data) => ggWeightFromDict shp data g end) (fun g =>
  match fW with
  | None => Abort
  | Some f => obind (gwWeightFromDict f w) (fun w => Ok (g, w))
  end))).
(** Weight::FromDict with flag GammaGWStatis, weight.cpp:104-110, when the file has no statistics *)
Definition clearGammaGW (p : ggam * gwam) : outcome (ggam * gwam) :=
  obind (gwClear (snd p)) (fun w => Ok (ggClear (fst p), w)).
End G3.
Arguments PWild {A}. Arguments PNull {A}. Arguments PAt {A} a.
