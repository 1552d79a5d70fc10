(** The loops over data points and datasets with counters of type int, and positions passed as int.  DataStructure.v and Correlator.v
    count with natural numbers; here the methods that contain such loops, and those that call them, are written once more:
    [i++] overflows after INT_MAX, and a long passed to an int parameter keeps its low 32 bits (the conversion is
    implementation-defined; this is what gcc, clang and msvc do).  Sums and products in long do not overflow (sizes below 2^31
    times 2^31), and the doubles N_datasets and M_datapoints of the Correlator are exact (below 2^53). *)
From Coq Require Import String.
From Coq Require Import ZArith List Bool Arith.
From Verif Require Import Num Mem DataStructure Correlator Sacf Api IntIndex.
Import ListNotations.
Local Open Scope list_scope.

(** long to int *)
Definition wrap32 (z : Z) : Z := ((z + 2147483648) mod 4294967296 - 2147483648)%Z.

(** v[z], v.at(z) (the long becomes a huge size_t if negative), and the elements [a, b) through iterators *)
Definition zget {X} (l : list X) (z : Z) : res X := if (z <? 0)%Z then UB OobRead else lget l (Z.to_nat z).
Definition zat {X} (l : list X) (z : Z) : res X := if (z <? 0)%Z then Throw OutOfRange else lat l (Z.to_nat z).
Definition zslice {X} (l : list X) (a b : Z) : res (list X) :=
  if ((a <? 0) || (b <? a))%Z then UB OobRead else slice l (Z.to_nat a) (Z.to_nat b).
Definition zwrite {X} (l : list X) (a : Z) (xs : list X) : res (list X) :=
  if (a <? 0)%Z then UB OobWrite else write_slice l (Z.to_nat a) xs.

(** DataStructure.cpp:44-46; [M] is M_datapoints, the arguments are converted to int *)
Definition index32 (M : nat) (i j : Z) : Z := (wrap32 i + wrap32 j * Z.of_nat M)%Z.

(** for(int j = j0; j < N; j++) collecting the values of the body, [n] iterations *)
Fixpoint mapI {X} (f : nat -> res X) (n j : nat) : res (list X) :=
  match n with
  | 0 => Ok []
  | S n' => do x <- f j; do j' <- iadd j 1; do xs <- mapI f n' j'; Ok (x :: xs)
  end.

Section IntSize.
Context {A : Num}.

(** DataStructure.cpp:143-147 *)
Definition dataset_mean32 (data : list num) (M j : nat) : res num :=
  do xs <- zslice data (index32 M 0 (Z.of_nat j)) (index32 M (Z.of_nat M) (Z.of_nat j));
  let x_copy := filter (fun d => negb (nisnan d)) xs in
  Ok (ndiv (fold_left nadd x_copy nzero) (nofZ (Z.of_nat (length x_copy)))).
(** DataStructure.cpp:140-149 *)
Definition setDataMean32 (data : list num) (N M : nat) : res (list num) := mapI (dataset_mean32 data M) N 0.

(** DataStructure.cpp:157-163 *)
Fixpoint calcNormData_loop32 (data means : list num) (M : nat) (n j : nat) (nd : list num) : res (list num) :=
  match n with
  | 0 => Ok nd
  | S n' =>
      do xs <- zslice data (index32 M 0 (Z.of_nat j)) (index32 M (Z.of_nat M) (Z.of_nat j));
      do m <- lget means j;
      do nd' <- zwrite nd (index32 M 0 (Z.of_nat j)) (map (fun x => nsub x m) xs);
      do j' <- iadd j 1;
      calcNormData_loop32 data means M n' j' nd'
  end.
Definition calcNormData32 (data means : list num) (N M : nat) : res (list num) :=
  calcNormData_loop32 data means M N 0 (repeat nzero (length data)).

(** DataStructure.cpp:33-42 *)
Definition setUp32 (t_in data_in err_in : list num) (N M : nat) : res dstruct :=
  if (length data_in =? 0) || (length t_in =? 0) then Throw EmptyDataStructureException
  else if negb (length data_in mod length t_in =? 0) then Throw BadDataInputException
  else
    do means <- setDataMean32 data_in N M;
    do tm <- lback t_in;
    do nt <- calcNormt t_in;
    do nd <- calcNormData32 data_in means N M;
    do med <- settMedian nt;
    Ok {| t := t_in; data_ := data_in; err := err_in; data_mean := means;
          t_median := med; t_max := tm; norm_t := nt; norm_data := nd;
          N_datasets := N; M_datapoints := M |}.

(** sacf.py:33-41, DataStructure.cpp:48-88 *)
Definition SACF_1d32 (t_in v_in : list num) (e_in : option (list num)) : res dstruct :=
  setUp32 t_in v_in (match e_in with None => [] | Some e => e end) 1 (length t_in).
Definition SACF_2d32 (t_in : list num) (v_in : list (list num)) (e_in : option (list (list num))) : res dstruct :=
  setUp32 t_in (concat v_in) (match e_in with None => [] | Some e => concat e end) (length v_in) (length t_in).

(** DataStructure.cpp:188-225 *)
Definition rows_2d32 (v : list num) (N M : nat) : res (list (list num)) :=
  mapI (fun j => mapI (fun i => zget v (index32 M (Z.of_nat i) (Z.of_nat j))) M 0) N 0.
Definition data_2d32 (d : dstruct) : res (list (list num)) := rows_2d32 (data_ d) (N_datasets d) (M_datapoints d).
Definition err_2d32 (d : dstruct) : res (list (list num)) :=
  match err d with [] => Ok [] | _ => rows_2d32 (err d) (N_datasets d) (M_datapoints d) end.
Definition normalised_data_2d32 (d : dstruct) : res (list (list num)) := rows_2d32 (norm_data d) (N_datasets d) (M_datapoints d).

(** Correlator.cpp:10-23: n = size() as int, i < n - 1; all positions are inside *)
Definition findMinDiff32 (arr : list num) : res num :=
  let n := wrap32 (Z.of_nat (length arr)) in
  if (n =? INT_MIN)%Z then UB BadConversion else Ok (findMinDiff_loop (firstn (Z.to_nat n) arr) ndblmax).

(** Correlator.cpp:39-47 *)
Fixpoint norm_loop32 (d : dstruct) (j : nat) (n i : nat) (acc : num) : res num :=
  match n with
  | 0 => Ok acc
  | S n' =>
      do x <- zat (data_ d) (index32 (M_datapoints d) (Z.of_nat i) (Z.of_nat j));
      let X := nf32 x in
      if nisnan X then do i' <- iadd i 1; norm_loop32 d j n' i' acc
      else
        do m <- lget (data_mean d) j;
        do i' <- iadd i 1;
        norm_loop32 d j n' i' (nadd acc (nmul (nsub X m) (nsub X m)))
  end.

(** Correlator.cpp:33-55 *)
Definition new_Correlator32 (d : dstruct) : res correlator :=
  do N <- mapI (fun j => norm_loop32 d j (M_datapoints d) 0 nzero) (N_datasets d) 0;
  do maxl <- lback (norm_t d);
  let minl := nneg maxl in
  do lres <- findMinDiff32 (norm_t d);
  do q <- to_int (nfloor (ndiv (nsub maxl minl) lres));
  do nls <- int_add q 3;
  if (nls <? 0)%Z then UB BadConversion
  else
    let n := Z.to_nat nls in
    Ok {| ds := d;
          correlations_ := repeat nzero (N_datasets d * n);
          timeseries_ := repeat nzero n;
          Nvec := N; max_lag := maxl; min_lag := minl; lag_resolution := lres;
          alpha := t_median d; num_lag_steps := n |}.

(** Correlator.cpp:92-104: int i, the comparison with size() is in size_t *)
Fixpoint natural_loop32 (p : platform) (nt : list num) (n i : nat) (it : cor_it) : meth cor_it unit :=
  match n with
  | 0 => (it, Ok tt)
  | S n' =>
      mlift it (vget p (shifted_timeseries it) i) (fun s =>
      mlift it (natural_index p nt s) (fun idx =>
      let it' := set_selection it (vpush (selection_indices it) idx) in
      mlift it' (iadd i 1) (fun i' => natural_loop32 p nt n' i' it')))
  end.
(** Correlator.cpp:79-107 *)
Definition naturalSelectionFunctionIdx32 (p : platform) (d : dstruct) (it : cor_it) : meth cor_it unit :=
  mlift it (lback (norm_t d)) (fun back =>
  let it1 := set_shifted it (natural_shift (norm_t d) back (k it) (shifted_timeseries it)) in
  mbind (natural_loop32 p (norm_t d) (vsize (shifted_timeseries it1)) 0 it1) (fun it2 _ =>
  (set_shifted it2 (vclear (shifted_timeseries it2)), Ok tt))).

(** Correlator.cpp:130-132: idx is long *)
Fixpoint fast_fill32 (idx : nat) (n i : nat) (v : vec nat) : res (vec nat) :=
  match n with
  | 0 => Ok v
  | S n' => do v' <- vset v i (idx + i); do i' <- iadd i 1; fast_fill32 idx n' i' v'
  end.
(** Correlator.cpp:109-135 *)
Definition fastSelectionFunctionIdx32 (p : platform) (d : dstruct) (it : cor_it) : meth cor_it unit :=
  mlift it (lback (norm_t d)) (fun back =>
  let it1 := set_shifted it (fast_shift (norm_t d) back (k it) (shifted_timeseries it)) in
  let size := vsize (shifted_timeseries it1) in
  mbind
    (if size =? 0 then (it1, Ok tt)
     else
       mlift it1 (vget p (shifted_timeseries it1) 0) (fun s =>
       mlift it1 (lower_bound (norm_t d) s) (fun idx =>
       mlift it1 (lat (norm_t d) (idx + 1)) (fun b =>
       mlift it1 (cabs p (nsub s b)) (fun db =>
       mlift it1 (lat (norm_t d) idx) (fun a =>
       mlift it1 (cabs p (nsub s a)) (fun da =>
       let idx' := if nlt db da then idx + 1 else idx in
       let it2 := set_selection it1 (vresize 0 (selection_indices it1) size) in
       mlift it2 (fast_fill32 idx' (size - idx') 0 (selection_indices it2)) (fun v =>
       (set_selection it2 v, Ok tt)))))))))
    (fun it3 _ => (set_shifted it3 (vclear (shifted_timeseries it3)), Ok tt))).

(** Correlator.cpp:162-170 *)
Fixpoint deltaT_loop32 (p : platform) (nt : list num) (vals : list nat) (t_i : nat) (it : cor_it) : meth cor_it unit :=
  match vals with
  | [] => (it, Ok tt)
  | value :: vals' =>
      mlift it (lat nt value) (fun a =>
      mlift it (vget p (shifted_timeseries it) t_i) (fun s =>
      mlift it (cabs p (nsub a s)) (fun dt =>
      let it' := set_delta it (vpush (delta_t it) dt) in
      mlift it' (iadd t_i 1) (fun t' => deltaT_loop32 p nt vals' t' it'))))
  end.
Definition deltaT32 (p : platform) (d : dstruct) (it : cor_it) : meth cor_it unit :=
  mbind (deltaT_loop32 p (norm_t d) (vlive (selection_indices it)) 0 it) (fun it1 _ =>
  (set_shifted it1 (vclear (shifted_timeseries it1)), Ok tt)).

(** Correlator.cpp:172-197: i counts the elements and is not used otherwise *)
Fixpoint weights_loop32 (w : num -> num) (dts : list num) (i : nat) (v : vec num) : res (vec num) :=
  match dts with
  | [] => Ok v
  | x :: dts' => do i' <- iadd i 1; weights_loop32 w dts' i' (vpush v (w x))
  end.
Definition getWeights32 (w : num -> num) (it : cor_it) : meth cor_it unit :=
  mlift it (weights_loop32 w (vlive (delta_t it)) 0 (weights it)) (fun v =>
  let it1 := set_weights it v in
  (set_delta it1 (vclear (delta_t it1)), Ok tt)).

(** Correlator.cpp:140-144: the selected position is a long passed as int *)
Fixpoint findCorrelation_sum32 (p : platform) (d : dstruct) (sel : vec nat) (j : nat)
  (ws : list num) (i : nat) (acc : num) : meth num unit :=
  match ws with
  | [] => (acc, Ok tt)
  | w :: ws' =>
      mlift acc (zat (norm_data d) (index32 (M_datapoints d) (Z.of_nat i) (Z.of_nat j))) (fun x =>
      mlift acc (vget p sel i) (fun si =>
      mlift acc (zat (norm_data d) (index32 (M_datapoints d) (Z.of_nat si) (Z.of_nat j))) (fun y =>
      let acc' := nadd acc (nmul (nmul w x) y) in
      mlift acc' (iadd i 1) (fun i' => findCorrelation_sum32 p d sel j ws' i' acc'))))
  end.
(** Correlator.cpp:137-147 *)
Fixpoint findCorrelation_loop32 (p : platform) (c : correlator) (n j : nat) (it : cor_it) : meth cor_it unit :=
  match n with
  | 0 => (it, Ok tt)
  | S n' =>
      mlift it (lget (correlation it) j) (fun acc =>
      let sum := findCorrelation_sum32 p (ds c) (selection_indices it) j (vlive (weights it)) 0 acc in
      mlift it (lset (correlation it) j (fst sum)) (fun cs =>
      let it1 := set_correlation it cs in
      mlift it1 (snd sum) (fun _ =>
      mlift it1 (lget (Nvec c) j) (fun Nj =>
      mlift it1 (lset cs j (nmul (fst sum) (ndiv none_ Nj))) (fun cs' =>
      let it2 := set_correlation it cs' in
      mlift it2 (iadd j 1) (fun j' => findCorrelation_loop32 p c n' j' it2))))))
  end.
Definition findCorrelation32 (p : platform) (c : correlator) (it : cor_it) : meth cor_it unit :=
  findCorrelation_loop32 p c (N_datasets (ds c)) 0 it.

(** Correlator.cpp:276-287 *)
Definition calculateStandardCorrelation_at32 (p : platform) (c : correlator) (kk : num) (i : nat) : meth correlator unit :=
  on_it c (naturalSelectionFunctionIdx32 p (ds c) (CorrelationIterator kk (N_datasets (ds c)))) (fun it1 =>
  on_it c (deltaT32 p (ds c) it1) (fun it2 =>
  on_it c (getWeights32 (fractionWeightFunction (alpha c)) it2) (fun it3 =>
  on_it c (findCorrelation32 p c it3) (fun it4 =>
  addCorrelationData_int c it4 i)))).
(** Correlator.cpp:259-272 *)
Fixpoint std_loop32 (p : platform) (fuel : nat) (kk : num) (is_positive : bool) (i : nat) (c : correlator) : meth correlator nat :=
  match fuel with
  | 0 => (c, Diverge)
  | S fuel' =>
      if nle kk (max_lag c) then
        let is_positive1 := if neqb kk nzero then true else is_positive in
        if nlt nzero kk && negb is_positive1 then
          mbind (calculateStandardCorrelation_at32 p c nzero i) (fun c1 _ =>
          mlift c1 (iadd i 1) (fun i1 =>
          mbind (calculateStandardCorrelation_at32 p c1 kk i1) (fun c2 _ =>
          mlift c2 (iadd i1 1) (fun i2 =>
          std_loop32 p fuel' (nadd kk (lag_resolution c)) true i2 c2))))
        else
          mbind (calculateStandardCorrelation_at32 p c kk i) (fun c1 _ =>
          mlift c1 (iadd i 1) (fun i1 =>
          std_loop32 p fuel' (nadd kk (lag_resolution c)) is_positive1 i1 c1))
      else (c, Ok i)
  end.
(** Correlator.cpp:254-274 *)
Definition calculateStandardCorrelation32 (p : platform) (c : correlator) : meth correlator unit :=
  mbind (std_loop32 p (S (length (timeseries_ c))) (min_lag c) false 0 c) (fun c1 i =>
  cleanCorrelationData_int c1 i).

(** sacf.py:4-13 *)
Definition SELECTION_FUNCTIONS32 (p : platform) (name : string) : option (correlator -> cor_it -> meth cor_it unit) :=
  if String.eqb name "fast"%string then Some (fun c => fastSelectionFunctionIdx32 p (ds c))
  else if String.eqb name "natural"%string then Some (fun c => naturalSelectionFunctionIdx32 p (ds c))
  else None.
Definition WEIGHT_FUNCTIONS32 (name : string) : option (correlator -> cor_it -> meth cor_it unit) :=
  if String.eqb name "gaussian"%string then Some (fun c => getWeights32 (gaussianWeightFunction (alpha c)))
  else if String.eqb name "fractional"%string then Some (fun c => getWeights32 (fractionWeightFunction (alpha c)))
  else if String.eqb name "fractional_squared"%string then Some (fun c => getWeights32 (fractionSquaredWeightFunction (alpha c)))
  else None.
(** sacf.py:85-90 *)
Definition find_correlation_at32 (p : platform) (sel wgt : string) (c : correlator) (kk : num) (i : nat) : meth correlator unit :=
  let it0 := CorrelationIterator kk (N_datasets (ds c)) in
  match SELECTION_FUNCTIONS32 p sel with
  | None => (c, Throw PyKeyError)
  | Some f =>
      on_it c (f c it0) (fun it1 =>
      on_it c (deltaT32 p (ds c) it1) (fun it2 =>
      match WEIGHT_FUNCTIONS32 wgt with
      | None => (c, Throw PyKeyError)
      | Some w =>
          on_it c (w c it2) (fun it3 =>
          on_it c (findCorrelation32 p c it3) (fun it4 =>
          addCorrelationData_int c it4 i))
      end))
  end.
(** sacf.py:82-84 *)
Fixpoint find_loop32 (p : platform) (sel wgt : string) (fuel : nat) (maxl resl : num) (g : gen)
  (n : nat) (last : option nat) (c : correlator) : meth correlator (option nat) :=
  match fuel with
  | 0 => (c, Diverge)
  | S fuel' =>
      match gen_next maxl resl g with
      | None => (c, Ok last)
      | Some (kk, g') =>
          mbind (find_correlation_at32 p sel wgt c kk n) (fun c1 _ =>
          find_loop32 p sel wgt fuel' maxl resl g' (S n) (Some n) c1)
      end
  end.
(** sacf.py:57-92 *)
Definition find_correlation32 (p : platform) (c : correlator) (sel wgt : string) : meth correlator unit :=
  mbind (find_loop32 p sel wgt (S (length (timeseries_ c))) (max_lag c) (lag_resolution c)
           (gen_start (min_lag c)) 0 None c) (fun c1 last =>
  match last with
  | None => (c1, Throw PyUnboundLocalError)
  | Some i => cleanCorrelationData_int c1 (i + 1)
  end).
(** sacf.py:94-146 *)
Definition autocorrelation32 (p : platform) (d : dstruct) (min_l max_l res_l al : option num)
  (sel wgt : string) : res (list num * py_corr * correlator) :=
  do c0 <- new_Correlator32 d;
  let c1 := set_up_correlation c0 min_l max_l res_l al in
  let m := if String.eqb sel "natural"%string && String.eqb wgt "fractional"%string
           then calculateStandardCorrelation32 p c1
           else find_correlation32 p c1 sel wgt in
  do _u <- snd m;
  do r <- result_of_int (fst m);
  Ok (fst r, snd r, fst m).

End IntSize.
