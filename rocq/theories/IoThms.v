(** * Proofs about raster input and output *)

From Coq Require Import Reals Lra Lia ZifyBool.
From Flocq Require Import Core IEEE754.BinarySingleNaN Relative Plus_error.
From Verif Require Import Base BaseProofs Num Float64 Float64Proofs Float64Arith Float64Scale FillSpec FillProofs IoModel.
Local Open Scope Z_scope.

(** ** Writer *)

(** Values held by an integer array are values of its type. *)
Definition int_array_ok (d : dtype) (vs : list Z) : Prop :=
  exists lo hi, int_range d = Some (lo, hi) /\ forall v, In v vs -> lo <= v <= hi.

(** The numbers a GDAL integer type holds. *)
Definition gdal_range (g : gdal_type) : option (Z * Z) :=
  match g with
  | GDT_Byte => Some (0, 255)
  | GDT_UInt16 => Some (0, 65535)
  | GDT_Int16 => Some (-32768, 32767)
  | GDT_UInt32 => Some (0, 4294967295)
  | GDT_Int32 => Some (-2147483648, 2147483647)
  | _ => None
  end.

Lemma fold_min_spec : forall t v, fold_left Z.min t v <= v /\ forall x, In x t -> fold_left Z.min t v <= x.
Proof.
  induction t as [|y t IH]; intros v; cbn [fold_left]; [split; [lia|intros x []]|].
  destruct (IH (Z.min v y)) as (A & B). split; [lia|]. intros x [<-|H]; [lia|auto].
Qed.
Lemma fold_max_spec : forall t v, v <= fold_left Z.max t v /\ forall x, In x t -> x <= fold_left Z.max t v.
Proof.
  induction t as [|y t IH]; intros v; cbn [fold_left]; [split; [lia|intros x []]|].
  destruct (IH (Z.max v y)) as (A & B). split; [lia|]. intros x [<-|H]; [lia|auto].
Qed.
Lemma fold_min_in : forall t v, In (fold_left Z.min t v) (v :: t).
Proof.
  induction t as [|y t IH]; intros v; cbn [fold_left]; [left; auto|].
  destruct (IH (Z.min v y)) as [E|E]; [|right; right; auto].
  rewrite <- E. destruct (Z.min_spec v y) as [[_ ->]|[_ ->]]; [left|right; left]; auto.
Qed.
Lemma fold_max_in : forall t v, In (fold_left Z.max t v) (v :: t).
Proof.
  induction t as [|y t IH]; intros v; cbn [fold_left]; [left; auto|].
  destruct (IH (Z.max v y)) as [E|E]; [|right; right; auto].
  rewrite <- E. destruct (Z.max_spec v y) as [[_ ->]|[_ ->]]; [right; left|left]; auto.
Qed.

Lemma min_max_spec : forall vs mn mx, zmin_max vs = Ok (mn, mx) ->
  In mn vs /\ In mx vs /\ forall v, In v vs -> mn <= v <= mx.
Proof.
  intros [|v t] mn mx H; [discriminate|]. cbn [zmin_max] in H. injection H as <- <-.
  split; [apply fold_min_in|]. split; [apply fold_max_in|].
  destruct (fold_min_spec t v) as (A & B). destruct (fold_max_spec t v) as (C & D).
  intros x [<-|Hx]; [lia|]. specialize (B x Hx). specialize (D x Hx). lia.
Qed.

Lemma wrap_id : forall d lo hi v, int_range d = Some (lo, hi) -> lo <= v <= hi -> wrap d v = v.
Proof. intros d lo hi v H B. unfold wrap. rewrite H. rewrite Z.mod_small by lia. lia. Qed.

Lemma map_wrap_id : forall d lo hi vs, int_range d = Some (lo, hi) -> (forall v, In v vs -> lo <= v <= hi) ->
  map (wrap d) vs = vs.
Proof.
  intros d lo hi vs H B. rewrite <- (map_id vs) at 2. apply map_ext_in. intros v Hv. eapply wrap_id; eauto.
Qed.

Definition is_int (d : dtype) : bool :=
  match d with Int8 | Int16 | Int32 | Int64 | UInt8 | UInt16 | UInt32 | UInt64 => true | _ => false end.

Theorem write_int_sound : forall d vs g b, is_int d = true -> int_array_ok d vs -> write (Ints d vs) = Ok (g, b) ->
  exists d' lo hi, b = Ints d' vs /\ gdal_range g = Some (lo, hi) /\ int_range d' = Some (lo, hi) /\
    forall v, In v vs -> lo <= v <= hi.
Proof.
  intros d vs g b I (lo & hi & R & B) W. unfold write in W. cbn [dtype_of] in W.
  destruct (direct d) as [g'|] eqn:D.
  - injection W as <- <-. exists d, lo, hi. split; auto. destruct d; try discriminate D; try discriminate I;
    injection D as <-; injection R as <- <-; auto.
  - assert (W' : (' (mn, mx) <- zmin_max vs ;; write_ints mn mx (Ints d vs)) = Ok (g, b)) by (destruct d; auto; discriminate I).
    clear W. apply bind_ok in W'. destruct W' as ((mn & mx) & M & W). apply min_max_spec in M. destruct M as (_ & _ & M).
    unfold write_ints in W. cbn [astype_int bind] in W.
    destruct (0 <=? mn) eqn:E0.
    + destruct (mx <=? 255) eqn:E1; [|destruct (mx <=? 65535) eqn:E2; [|destruct (mx <=? 4294967295) eqn:E3; [|discriminate]]];
        unfold write_direct in W; cbn [dtype_of direct] in W; injection W as <- <-.
      * exists UInt8, 0, 255. rewrite (map_wrap_id UInt8 0 255) by (auto; intros v Hv; specialize (M v Hv); lia).
        split; auto. split; auto. split; auto. intros v Hv. specialize (M v Hv). lia.
      * exists UInt16, 0, 65535. rewrite (map_wrap_id UInt16 0 65535) by (auto; intros v Hv; specialize (M v Hv); lia).
        split; auto. split; auto. split; auto. intros v Hv. specialize (M v Hv). lia.
      * exists UInt32, 0, 4294967295. rewrite (map_wrap_id UInt32 0 4294967295) by (auto; intros v Hv; specialize (M v Hv); lia).
        split; auto. split; auto. split; auto. intros v Hv. specialize (M v Hv). lia.
    + destruct ((-32768 <=? mn) && (mx <=? 32767)) eqn:E1; [|destruct ((-2147483648 <=? mn) && (mx <=? 2147483647)) eqn:E2; [|discriminate]];
        unfold write_direct in W; cbn [dtype_of direct] in W; injection W as <- <-.
      * exists Int16, (-32768), 32767. rewrite (map_wrap_id Int16 (-32768) 32767) by (auto; intros v Hv; specialize (M v Hv); lia).
        split; auto. split; auto. split; auto. intros v Hv. specialize (M v Hv). lia.
      * exists Int32, (-2147483648), 2147483647.
        rewrite (map_wrap_id Int32 (-2147483648) 2147483647) by (auto; intros v Hv; specialize (M v Hv); lia).
        split; auto. split; auto. split; auto. intros v Hv. specialize (M v Hv). lia.
Qed.

(** It fails exactly when no GDAL type holds all values. *)
Theorem write_int_total : forall d vs, is_int d = true -> int_array_ok d vs -> vs <> [] ->
  ((exists g b, write (Ints d vs) = Ok (g, b)) /\
   ((forall v, In v vs -> 0 <= v <= 4294967295) \/ (forall v, In v vs -> -2147483648 <= v <= 2147483647))) \/
  (write (Ints d vs) = Exc UnboundLocalError /\
   ~ (forall v, In v vs -> 0 <= v <= 4294967295) /\ ~ (forall v, In v vs -> -2147483648 <= v <= 2147483647)).
Proof.
  intros d vs I (lo & hi & R & B) N.
  destruct (direct d) as [g'|] eqn:D.
  - left. split; [exists g', (Ints d vs); unfold write; cbn [dtype_of]; rewrite D; reflexivity|]. destruct d; try discriminate D; try discriminate I; injection R as <- <-; auto.
    + right. intros v Hv. specialize (B v Hv). lia.
    + left. intros v Hv. specialize (B v Hv). lia.
    + left. intros v Hv. specialize (B v Hv). lia.
  - destruct vs as [|v0 t]; [congruence|].
    destruct (zmin_max (v0 :: t)) as [[mn mx]| |] eqn:M; [|discriminate|discriminate].
    pose proof (min_max_spec _ _ _ M) as (Imn & Imx & MM).
    assert (X : write (Ints d (v0 :: t)) = write_ints mn mx (Ints d (v0 :: t))).
    { unfold write. cbn [dtype_of]. rewrite D, M. destruct d; try discriminate D; try discriminate I; reflexivity. }
    rewrite X. clear X.
    unfold write_ints. cbn [astype_int bind]. unfold write_direct. cbn [dtype_of direct].
    destruct (0 <=? mn) eqn:E0.
    + destruct (mx <=? 255) eqn:E1; [|destruct (mx <=? 65535) eqn:E2; [|destruct (mx <=? 4294967295) eqn:E3]].
      1-3: left; split; [eauto|left; intros v Hv; specialize (MM v Hv); lia].
      right. split; auto. split; intros X; specialize (X mx Imx); lia.
    + destruct ((-32768 <=? mn) && (mx <=? 32767)) eqn:E1;
        [|destruct ((-2147483648 <=? mn) && (mx <=? 2147483647)) eqn:E2].
      1-2: left; split; [eauto|right; intros v Hv; specialize (MM v Hv); lia].
      right. split; auto. split; intros X.
      * specialize (X mn Imn). lia.
      * pose proof (X mn Imn). pose proof (X mx Imx). lia.
Qed.

Theorem write_float_sound : forall d vs g b, int_range d = None -> (d <> Float64 -> forall x, In x vs -> is_f32 x) ->
  write (Floats d vs) = Ok (g, b) ->
  exists d', b = Floats d' vs /\ ((d' = Float64 /\ g = GDT_Float64) \/ (d' = Float32 /\ g = GDT_Float32 /\ forall x, In x vs -> is_f32 x)).
Proof.
  intros d vs g b R F W. unfold write in W. cbn [dtype_of] in W. destruct d; try discriminate R; cbn [direct] in W.
  - apply bind_ok in W. destruct W as ((mn & mx) & M & W). unfold write_floats in W.
    assert (F' : forall x, In x vs -> is_f32 x) by (apply F; discriminate).
    destruct (Bleb (Bopp f32_limit) mn && Bleb mx f32_limit); unfold write_direct in W;
      cbn [astype_float dtype_of direct] in W; injection W as <- <-.
    + exists Float32. rewrite <- (map_id vs) at 2. split; [|right; auto]. f_equal. apply map_ext_in. intros x Hx. apply F'; auto.
    + exists Float64. rewrite <- (map_id vs) at 2. split; [|left; auto]. f_equal.
  - injection W as <- <-. exists Float32. split; auto. right. split; auto. split; auto. apply F. discriminate.
  - injection W as <- <-. exists Float64. auto.
Qed.

Theorem write_float_total : forall d vs, int_range d = None -> vs <> [] -> exists r, write (Floats d vs) = Ok r.
Proof.
  intros d vs R N. unfold write. cbn [dtype_of]. destruct d; try discriminate R; cbn [direct]; eauto.
  destruct vs as [|x t]; [congruence|]. cbn [fmin_max bind]. unfold write_floats.
  destruct (_ && _); unfold write_direct; cbn [astype_float dtype_of direct]; eauto.
Qed.

Theorem write_bool : forall vs, vs <> [] -> (forall v, In v vs -> 0 <= v <= 1) ->
  write (Ints Bool_ vs) = Ok (GDT_Float32, Floats Float32 (map f64_ofZ vs)).
Proof.
  intros vs N B. unfold write. cbn [dtype_of direct].
  destruct (zmin_max vs) as [[mn mx]| |] eqn:M; [|destruct vs; [congruence|discriminate]|destruct vs; [congruence|discriminate]].
  apply min_max_spec in M. destruct M as (Imn & Imx & _). pose proof (B mn Imn). pose proof (B mx Imx). cbn [bind].
  unfold write_floats.
  assert (X : forall v, v = 0 \/ v = 1 -> Bleb (Bopp f32_limit) (f64_ofZ v) = true /\ Bleb (f64_ofZ v) f32_limit = true /\
    round_to Float32 (f64_ofZ v) = f64_ofZ v).
  { intros v [-> | ->]; (split; [vm_compute; reflexivity|]); (split; [vm_compute; reflexivity|]);
      apply B2SF_inj; vm_compute; reflexivity. }
  destruct (X mn ltac:(lia)) as (-> & _). destruct (X mx ltac:(lia)) as (_ & -> & _). cbn [andb].
  unfold write_direct. cbn [astype_float dtype_of direct]. do 3 f_equal. apply map_ext_in. intros v Hv. apply X.
  specialize (B v Hv). lia.
Qed.

Definition big : list Z := [0; 4294967296].

Theorem write_unbound_refuted : exists d vs, is_int d = true /\ int_array_ok d vs /\ vs <> [] /\
  write (Ints d vs) = Exc UnboundLocalError.
Proof.
  exists Int64, big. split; [reflexivity|]. split.
  - do 2 eexists. split; [reflexivity|]. intros v [<-|[<-|[]]]; lia.
  - split; [discriminate|]. reflexivity.
Qed.

(** ** Reader *)

Lemma rtol_facts : is_finite rtol = true /\ (0 < B2R rtol <= 1)%R.
Proof.
  split; [vm_compute; reflexivity|]. split.
  - change 0%R with (B2R f64_zero). apply rank_lt_R; try (vm_compute; reflexivity).
  - rewrite <- one_rank. apply rank_le_R; try (vm_compute; reflexivity).
    apply Z.leb_le. vm_compute. reflexivity.
Qed.

Lemma mul_rtol_shrinks : exists k, shrinks (fun x => f64_mul x rtol) k.
Proof.
  destruct rtol_facts as [F K]. exists (B2R rtol)%R.
  split; [exact K|]. split.
  - intros x Fx.
    pose proof (Bmult_correct 53 1024 _ _ mode_NE x rtol) as H. fold f64_mul in H.
    rewrite Rlt_bool_true in H.
    + destruct H as (H1 & H2 & _). cbv beta. rewrite H1, H2, Fx, F. auto.
    + apply (shrinks_bound x _ K).
  - intros [|]; vm_compute; reflexivity.
Qed.

Lemma rank_abs : forall x : b64, rank (Babs x) = Z.abs (rank x).
Proof.
  intros [s|s| |s m e H]; cbn [Babs rank]; try reflexivity.
  - pose proof RINF_pos. destruct s; lia.
  - assert (0 <= 2 ^ (e + 1074)) by (apply Z.pow_nonneg; lia). rewrite Z.abs_mul.
    destruct s; cbn [cond_Zopp Z.abs]; rewrite (Z.abs_eq (2 ^ (e + 1074))) by auto; reflexivity.
Qed.

Lemma abs_not_nan : forall x : b64, not_nan x -> not_nan (Babs x).
Proof. intros [s|s| |s m e H] N; auto. Qed.

Definition tolerance (y : b64) : b64 := f64_add (f64_mul (Babs y) rtol) atol.

Lemma tolerance_facts : forall y : b64, is_finite y = true -> not_nan (tolerance y) /\ 0 < rank (tolerance y).
Proof.
  intros y Fy. destruct mul_rtol_shrinks as (k & S). unfold tolerance.
  assert (Na : not_nan (Babs y)) by (apply abs_not_nan; apply finite_not_nan; auto).
  pose proof (shrinks_not_nan _ _ _ S Na) as Nm. cbv beta in Nm.
  split; [apply add_not_nan; auto|].
  assert (M : rank (f64_mul f64_zero rtol) <= rank (f64_mul (Babs y) rtol)).
  { apply (shrinks_mono _ _ f64_zero (Babs y) S); auto; [reflexivity|]. rewrite rank_abs. change (rank f64_zero) with 0. lia. }
  change (rank (f64_mul f64_zero rtol)) with 0 in M.
  assert (Q : rank (f64_add f64_zero atol) <= rank (f64_add (f64_mul (Babs y) rtol) atol)).
  { apply add_mono; auto; try reflexivity. }
  assert (0 < rank (f64_add f64_zero atol)) by (apply Z.ltb_lt; vm_compute; reflexivity). lia.
Qed.

Lemma isclose_eq : forall x y : b64, not_nan y -> eq64 x y -> isclose x y = true.
Proof.
  intros x y Ny E. unfold isclose. destruct (is_finite x && is_finite y) eqn:F; auto.
  apply andb_true_iff in F. destruct F as (Fx & Fy). pose proof (finite_not_nan _ Fx) as Nx.
  destruct (tolerance_facts y Fy) as (T1 & T2). fold (tolerance y).
  apply eq64_rank in E; auto. fold (le64 (Babs (f64_sub x y)) (tolerance y)).
  apply le64_rank; [apply abs_not_nan; apply sub_not_nan; auto|auto|]. rewrite rank_abs.
  pose proof (sub_mono x y y Nx Ny Fy ltac:(lia)) as A. pose proof (sub_mono y x y Ny Nx Fy ltac:(lia)) as B.
  rewrite sub_self_rank in A, B by auto. lia.
Qed.

Theorem reader_partial : forall store nodata subst (data : raster b64),
  let out := reader_read store nodata subst data in
  same_shape out data /\
  forall c, inside (nrows data) (ncols data) c ->
    match nodata, subst with
    | Some nd, Some s =>
        (is_nan nd = true -> at_ out c = if is_nan (at_ data c) then store s else at_ data c) /\
        (~ eq64 nd f64_zero -> eq64 (at_ data c) nd -> at_ out c = store s) /\
        (is_nan nd = false -> is_finite nd = false -> at_ out c = if Beqb (at_ data c) nd then store s else at_ data c) /\
        (at_ out c = at_ data c \/ at_ out c = store s /\ (is_nan nd = true \/ isclose (at_ data c) nd = true)) 
    | _, _ => at_ out c = at_ data c
    end.
Proof. 
  intros store nodata subst data. cbv zeta. unfold reader_read.
  destruct nodata as [nd|]; [|split; [split; reflexivity|intros; destruct subst; reflexivity]].
  destruct subst as [s|]; [|split; [split; reflexivity|reflexivity]].
  destruct (Beqb nd f64_zero) eqn:Z0.
  - split; [split; reflexivity|]. intros c Hc.
    assert (Fz : is_nan nd = false /\ is_finite nd = true).
    { destruct nd as [sg|sg| |sg m e Hb]; vm_compute in Z0; auto; destruct sg; discriminate. }
    destruct Fz as (F1 & F2). split; [congruence|]. split; [intros X; exfalso; apply X; exact Z0|].
    split; [congruence|auto].
  - split; [split; reflexivity|]. intros c Hc.
    change (at_ (mkRaster (nrows data) (ncols data) (fun i j : Z => if (if is_nan nd then is_nan (rget data i j) else isclose (rget data i j) nd) then store s else rget data i j)) c)
      with (if (if is_nan nd then is_nan (at_ data c) else isclose (at_ data c) nd) then store s else at_ data c).
    destruct (is_nan nd) eqn:Nn.
    + split; [auto|]. split.
      { intros _ E. exfalso. destruct nd; try discriminate Nn. unfold eq64 in E. destruct (at_ data c); discriminate. }
      split; [congruence|]. destruct (is_nan (at_ data c)); [right; split; [reflexivity|left; reflexivity]|left; reflexivity].
    + split; [congruence|]. split.
      { intros _ E. rewrite isclose_eq; auto. }
      split.
      { intros _ F. unfold isclose. rewrite F, andb_false_r. reflexivity. }
      destruct (isclose (at_ data c) nd) eqn:X; auto.
Qed.

(** *** How close is close *)

Lemma plus_err : forall x y : b64, exists eps, (Rabs eps <= 1 / 100000)%R /\
  rnd64 (B2R x + B2R y)%R = ((B2R x + B2R y) * (1 + eps))%R.
Proof.
  intros x y.
  destruct (FLT_plus_error_N_ex radix2 (-1074) 53 (fun t => negb (Z.even t)) (B2R x) (B2R y)) as (eps & B & E).
  - apply generic_format_B2R.
  - apply generic_format_B2R.
  - exists eps. split; [|exact E].
    assert (U : (u_ro radix2 53 <= 1 / 100000)%R).
    { unfold u_ro. cbn [bpow Z.add Z.opp Z.pos_sub]. change (Z.pow_pos radix2 52) with 4503599627370496. lra. }
    assert (P : (0 <= u_ro radix2 53)%R) by apply u_ro_pos.
    apply Rle_trans with (1 := B). apply Rle_trans with (u_ro radix2 53); [|exact U].
    apply Rmult_le_reg_r with (1 + u_ro radix2 53)%R; [lra|]. unfold Rdiv. rewrite Rmult_assoc, Rinv_l by lra. nra.
Qed.

Lemma mul_err : forall z, exists eps eta, (Rabs eps <= 1 / 100000)%R /\ (Rabs eta <= 1 / 1000000000000000)%R /\
  rnd64 z = (z * (1 + eps) + eta)%R.
Proof.
  intros z. destruct (error_N_FLT radix2 (-1074) 53 eq_refl (fun t => negb (Z.even t)) z) as (eps & eta & B & C & _ & E).
  exists eps, eta. split; [|split; [|exact E]].
  - apply Rle_trans with (1 := B). cbn [bpow Z.add Z.opp Z.pos_sub]. change (Z.pow_pos radix2 52) with 4503599627370496. lra.
  - apply Rle_trans with (1 := C). apply Rle_trans with (/ 2 * bpow radix2 (-52))%R.
    + apply Rmult_le_compat_l; [lra|]. apply bpow_le. lia.
    + cbn [bpow]. change (Z.pow_pos radix2 52) with 4503599627370496. lra.
Qed.

Lemma B2R_SF : forall x : b64, B2R x = match B2SF x with SpecFloat.S754_finite s m e => F2R (Float radix2 (cond_Zopp s (Zpos m)) e) | _ => 0%R end.
Proof. intros [s|s| |s m e H]; reflexivity. Qed.

Lemma rtol_R : (999 / 100000000 <= B2R rtol <= 1001 / 100000000)%R.
Proof.
  rewrite B2R_SF. let v := eval vm_compute in (B2SF rtol) in change (B2SF rtol) with v.
  cbv beta iota. unfold F2R. cbn [Fnum Fexp cond_Zopp]. cbn [bpow].
  match goal with |- context[Z.pow_pos ?a ?b] => let v := eval vm_compute in (Z.pow_pos a b) in change (Z.pow_pos a b) with v end.
  split; lra.
Qed.

Lemma atol_R : (999 / 100000000000 <= B2R atol <= 1001 / 100000000000)%R.
Proof.
  rewrite B2R_SF. let v := eval vm_compute in (B2SF atol) in change (B2SF atol) with v.
  cbv beta iota. unfold F2R. cbn [Fnum Fexp cond_Zopp]. cbn [bpow].
  match goal with |- context[Z.pow_pos ?a ?b] => let v := eval vm_compute in (Z.pow_pos a b) in change (Z.pow_pos a b) with v end.
  split; lra.
Qed.

Lemma abs_R : forall x : b64, B2R (Babs x) = Rabs (B2R x).
Proof. intros. apply B2R_Babs. Qed.

Lemma abs_finite : forall x : b64, is_finite (Babs x) = is_finite x.
Proof. intros [s|s| |s m e H]; reflexivity. Qed.

Lemma tolerance_R : forall y : b64, is_finite y = true ->
  is_finite (tolerance y) = true /\
  (B2R (tolerance y) <= (100001 / 100000) * (1001 / 100000000 * (100001 / 100000) * Rabs (B2R y) + 1002 / 100000000000))%R.
Proof.
  intros y Fy. unfold tolerance. destruct mul_rtol_shrinks as (k & K & S1 & S2).
  destruct (S1 (Babs y)) as (Fm & _); [rewrite abs_finite; auto|]. cbv beta in Fm.
  pose proof (Bmult_correct 53 1024 _ _ mode_NE (Babs y) rtol) as M. fold f64_mul in M.
  destruct rtol_facts as [Fr Kr]. rewrite Rlt_bool_true in M by (apply (shrinks_bound (Babs y) _ Kr)).
  destruct M as (M & _). rewrite abs_R in M.
  destruct (mul_err (Rabs (B2R y) * B2R rtol)) as (e1 & eta & B1 & B2 & E1). fold rnd64 in M.
  assert (M' : B2R (f64_mul (Babs y) rtol) = (Rabs (B2R y) * B2R rtol * (1 + e1) + eta)%R) by (rewrite <- E1; exact M).
  destruct (plus_err (f64_mul (Babs y) rtol) atol) as (e2 & B3 & E2). rewrite M' in E2.
  apply Rabs_le_inv in B1, B2, B3. pose proof rtol_R as RR. pose proof atol_R as AR.
  pose proof (Rabs_pos (B2R y)) as YP. set (Y := Rabs (B2R y)) in *.
  assert (Q0 : (0 <= Y * B2R rtol <= Y * (1001 / 100000000))%R) by (split; [|apply Rmult_le_compat_l]; nra).
  assert (Q1 : (0 <= Y * B2R rtol * (1 + e1) <= Y * (1001 / 100000000) * (100001 / 100000))%R).
  { split; [nra|]. apply Rmult_le_compat; lra. }
  assert (Q2 : (0 <= Y * B2R rtol * (1 + e1) + eta + B2R atol <=
    1001 / 100000000 * (100001 / 100000) * Y + 1002 / 100000000000)%R) by lra.
  assert (Q3 : ((Y * B2R rtol * (1 + e1) + eta + B2R atol) * (1 + e2) <=
    (100001 / 100000) * (1001 / 100000000 * (100001 / 100000) * Y + 1002 / 100000000000))%R).
  { rewrite (Rmult_comm (100001 / 100000)). apply Rmult_le_compat; lra. }
  assert (Q4 : (0 <= (Y * B2R rtol * (1 + e1) + eta + B2R atol) * (1 + e2))%R) by (apply Rmult_le_pos; lra).
  assert (YB : (Y < emax64)%R).
  { pose proof (abs_B2R_lt_emax 53 1024 y) as X. exact X. }
  assert (EB : (2 <= emax64)%R).
  { change 2%R with (bpow radix2 1). apply bpow_le. lia. }
  destruct (add_cases (f64_mul (Babs y) rtol) atol Fm eq_refl) as [[F B]|[[E B]|[E B]]].
  - split; auto. rewrite B, M', E2. exact Q3.
  - exfalso. rewrite M', E2 in B. lra.
  - exfalso. rewrite M', E2 in B. lra.
Qed.

Theorem isclose_bound : forall x y : b64, finite64 x -> finite64 y -> isclose x y = true ->
  (Rabs (B2R x - B2R y) <= 101 / 100 * (1 / 100000000 + 1 / 100000 * Rabs (B2R y)))%R.
Proof.
  intros x y Fx Fy H. unfold isclose in H. rewrite Fx, Fy in H. cbn [andb] in H. fold (tolerance y) in H.
  destruct (tolerance_facts y Fy) as (T1 & _). destruct (tolerance_R y Fy) as (T3 & T4).
  fold (le64 (Babs (f64_sub x y)) (tolerance y)) in H.
  apply le64_rank in H; [|apply abs_not_nan; apply sub_not_nan; auto; apply finite_not_nan; auto|auto].
  pose proof (rank_finite_bound _ T3) as RB. pose proof RINF_pos.
  rewrite rank_abs, sub_add_opp in H.
  destruct (add_cases x (Bopp y) Fx (opp_finite _ Fy)) as [[F B]|[[E B]|[E B]]].
  - destruct (plus_err x (Bopp y)) as (e & Be & E). rewrite E in B.
    assert (HR : (Rabs (B2R (f64_add x (Bopp y))) <= B2R (tolerance y))%R).
    { rewrite <- abs_R. apply rank_le_R; auto; [rewrite abs_finite; auto|]. rewrite rank_abs. exact H. }
    rewrite B, B2R_Bopp, Rabs_mult in HR. unfold Rminus. apply Rabs_le_inv in Be.
    rewrite (Rabs_pos_eq (1 + e)) in HR by lra.
    pose proof (Rabs_pos (B2R x + - B2R y)) as DP. pose proof (Rabs_pos (B2R y)) as YP. set (d := Rabs (B2R x + - B2R y)) in *.
    assert (d * (99999 / 100000) <= d * (1 + e))%R by (apply Rmult_le_compat_l; lra). lra.
  - rewrite E, rank_pinf in H. lia.
  - rewrite E, rank_ninf in H. lia.
Qed.

(** The cell x holds the nodata value. *)
Definition is_nodata (nd x : b64) : Prop := eq64 x nd \/ (is_nan nd = true /\ is_nan x = true).

Theorem reader_sound : forall store nodata subst (data : raster b64),
  let out := reader_read store nodata subst data in
  same_shape out data /\
  forall c, inside (nrows data) (ncols data) c ->
    match nodata, subst with
    | Some nd, Some s =>
        (~ eq64 nd f64_zero -> is_nodata nd (at_ data c) -> at_ out c = store s) /\
        (at_ out c = at_ data c \/ at_ out c = store s /\
          (is_nodata nd (at_ data c) \/ finite64 nd /\ finite64 (at_ data c) /\
           (Rabs (B2R (at_ data c) - B2R nd) <= 101 / 100 * (1 / 100000000 + 1 / 100000 * Rabs (B2R nd)))%R))
    | _, _ => at_ out c = at_ data c
    end.
Proof.
  intros store nodata subst data. destruct (reader_partial store nodata subst data) as (S & F). cbv zeta in *.
  split; auto. intros c Hc. specialize (F c Hc). destruct nodata as [nd|]; auto. destruct subst as [s|]; auto.
  destruct F as (F1 & F2 & F3 & F4). split.
  - intros N0 [E|(E1 & E2)]; [auto|]. rewrite (F1 E1), E2. reflexivity.
  - destruct F4 as [E|(E & X)]; auto. destruct (is_nan nd) eqn:Nn.
    + rewrite (F1 eq_refl) in *. destruct (is_nan (at_ data c)) eqn:Nx; [|auto].
      right. split; auto. left. right. auto.
    + right. split; auto. destruct X as [X|X]; [discriminate|]. unfold finite64.
      destruct (is_finite (at_ data c)) eqn:G1; destruct (is_finite nd) eqn:G2;
        try (left; left; unfold eq64; unfold isclose in X; rewrite G1, G2 in X; exact X).
      right. split; auto. split; auto. apply isclose_bound; auto.
Qed.

Definition cell_of (x : b64) : raster b64 := of_rows f64_zero [[x]].
Definition near100 : b64 := f64 204801 (-11).

(** Nodata 0 is not substituted. *)
Theorem nodata_zero_refuted : exists data, at_ data (0, 0) = f64_zero /\
  ~ eq64 (at_ (reader_read (fun x => x) (Some f64_zero) (Some (f64_ofZ (-999))) data) (0, 0)) (f64_ofZ (-999)).
Proof.
  exists (cell_of f64_zero). split; [reflexivity|]. vm_compute. discriminate.
Qed.

(** Nodata 100 and a cell 100 + 2^-11. *)
Theorem nodata_close_refuted : exists data, lt64 (f64_ofZ 100) (at_ data (0, 0)) /\
  eq64 (at_ (reader_read (fun x => x) (Some (f64_ofZ 100)) (Some (f64_ofZ (-999))) data) (0, 0)) (f64_ofZ (-999)).
Proof.
  exists (cell_of near100). split; vm_compute; reflexivity.
Qed.

Theorem ex_float16 : int_range Float16 = None /\ is_f32 (f64_ofZ 1) /\ exists r, write (Floats Float16 [f64_ofZ 1]) = Ok r.
Proof.
  split; [reflexivity|]. split; [unfold is_f32; apply B2SF_inj; vm_compute; reflexivity|].
  apply write_float_total; [reflexivity|discriminate].
Qed.
