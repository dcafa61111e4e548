(** Proofs about masks, prep_input and animations. *)
From Coq Require Import Reals Lra Lia List Arith Bool String Ascii ZArith NArith Permutation Sorting.Sorted.
From Verif Require Import Base Tensor PTensor MText SText PText MLibrarian PLibrarian MUtils SUtils.
Import ListNotations.
Open Scope R_scope.

Lemma Int_part_IZR z : Int_part (IZR z) = z.
Proof. unfold Int_part. rewrite <- (up_tech (IZR z) z); [lia|lra|]. rewrite plus_IZR. lra. Qed.

Lemma ceil_nat n : ceil (INR n) = Z.of_nat n.
Proof. unfold ceil. rewrite INR_IZR_INZ, <- opp_IZR, Int_part_IZR. lia. Qed.

Lemma axis_len_exact r : (1 <= r)%nat -> axis_len r = (2 * r)%nat.
Proof.
  intros Hr. unfold axis_len, arange_len, axis_step. apply le_INR in Hr. change (INR 1) with 1 in Hr.
  replace ((INR r + 1 - - INR r) / ((2 * INR r + 1) / (2 * INR r))) with (INR (2 * r)).
  - rewrite ceil_nat. lia.
  - rewrite mult_INR. change (INR 2) with (1 + 1). field. lra.
Qed.

Lemma axis_pixel r k : (1 <= r)%nat -> axis_point r k = pixel (2 * r) k.
Proof.
  intros Hr. unfold axis_point, axis_step, pixel. apply le_INR in Hr. change (INR 1) with 1 in Hr.
  rewrite mult_INR. change (INR 2) with (1 + 1). field. lra.
Qed.

Definition bite_at (H : nat) (radius x y : R) (i j : nat) : R :=
  if Rlt_dec (sqrt ((pixel H j - x) ^ 2 + (pixel H i - y) ^ 2)) (radius * (INR H / 2)) then 0 else 1.

Lemma half_even r : (2 * r / 2 = r)%nat.
Proof. rewrite Nat.mul_comm. apply Nat.div_mul. lia. Qed.

Lemma bite_eq img r br co : (1 <= r)%nat -> tH img = (2 * r)%nat -> tW img = (2 * r)%nat ->
  get_bite_mask axis_len img br co = Ok (build 1 (tC img) (tH img) (tW img) (fun _ _ i j => bite_at (2 * r) br (fst co) (snd co) i j)).
Proof.
  intros Hr HH HW. unfold get_bite_mask. rewrite HH, HW, half_even.
  destruct (Nat.eqb_spec r 0); [lia|]. cbn [negb guard bind]. rewrite axis_len_exact by exact Hr.
  rewrite Nat.eqb_refl. cbn [orb andb]. rewrite orb_true_r. cbn [guard bind]. f_equal. apply build_ext.
  intros b c i j _ _ Hi Hj. unfold bidx. destruct (Nat.eqb_spec (2 * r) 1); [lia|].
  unfold mask_at, bite_at. rewrite !axis_pixel by exact Hr.
  replace (INR (2 * r) / 2) with (INR r) by (rewrite mult_INR; change (INR 2) with (1 + 1); lra).
  set (s := sqrt ((pixel (2 * r) j - fst co) ^ 2 + (pixel (2 * r) i - snd co) ^ 2)).
  replace (sqrt _) with s by (unfold s; f_equal; ring).
  assert (P : 0 < INR r) by (apply lt_0_INR; lia).
  destruct (Rlt_dec (s / INR r) br) as [L|L], (Rlt_dec s (br * INR r)) as [M|M]; try lra; exfalso.
  - apply M. apply (Rmult_lt_compat_r (INR r)) in L; [|exact P]. unfold Rdiv in L. rewrite Rmult_assoc, Rinv_l, Rmult_1_r in L by lra. exact L.
  - apply L. apply (Rmult_lt_reg_r (INR r)); [exact P|]. unfold Rdiv. rewrite Rmult_assoc, Rinv_l, Rmult_1_r by lra. exact M.
Qed.

Lemma bite_mask_spec img r br co : (1 <= r)%nat -> tH img = (2 * r)%nat -> tW img = (2 * r)%nat ->
  exists m, get_bite_mask axis_len img br co = Ok m /\ mask_of img (in_disc (tH img) br (fst co) (snd co)) 0 1 m.
Proof.
  intros Hr HH HW. eexists. split; [exact (bite_eq img r br co Hr HH HW)|]. split; [reflexivity|]. split; [apply twf_build|].
  intros c i j Hc Hi Hj. rewrite get_build by lia. unfold bite_at, in_disc. rewrite <- HH.
  destruct (Rlt_dec _ _) as [L|L]; split; intros K; try reflexivity; contradiction.
Qed.

Lemma bite_errors len img br co : (0 < tC img)%nat ->
  ((tH img < 2)%nat -> get_bite_mask len img br co = Err ZeroDivisionError) /\
  ((2 <= tH img)%nat -> len (tH img / 2)%nat <> 1%nat -> len (tH img / 2)%nat <> tH img \/ len (tH img / 2)%nat <> tW img ->
     get_bite_mask len img br co = Err ValueError).
Proof.
  intros HC. unfold get_bite_mask. split.
  - intros H. rewrite (Nat.div_small (tH img) 2) by lia. reflexivity.
  - intros H N1 N. assert (1 <= tH img / 2)%nat by (apply Nat.div_le_lower_bound; lia).
    destruct (Nat.eqb_spec (tH img / 2) 0); [lia|]. cbn [negb guard bind].
    destruct (Nat.eqb_spec (tC img) 0); [lia|]. destruct (Nat.eqb_spec (len (tH img / 2)%nat) 1); [contradiction|].
    rewrite !orb_false_r. cbn [orb].
    destruct (Nat.eqb_spec (len (tH img / 2)%nat) (tH img)) as [E1|]; [|reflexivity].
    destruct (Nat.eqb_spec (len (tH img / 2)%nat) (tW img)) as [E2|]; [|reflexivity]. exfalso. destruct N; contradiction.
Qed.

Lemma bite_exact_errors img br co : (0 < tC img)%nat -> (2 <= tH img)%nat -> (Nat.odd (tH img) = true \/ tH img <> tW img) ->
  get_bite_mask axis_len img br co = Err ValueError.
Proof.
  intros HC H2 HN. assert (Hr : (1 <= tH img / 2)%nat) by (apply Nat.div_le_lower_bound; lia).
  apply (proj2 (bite_errors axis_len img br co HC)); [exact H2| |]; rewrite axis_len_exact by exact Hr; [lia|].
  pose proof (Nat.div_mod (tH img) 2 ltac:(lia)) as D.
  destruct (Nat.eq_dec (2 * (tH img / 2)) (tH img)) as [E|]; [|now left]. right.
  destruct HN as [O|N]; [|lia]. exfalso. rewrite <- E in O. rewrite Nat.odd_mul in O. discriminate.
Qed.

Lemma aperture_spec img r a : (1 <= r)%nat -> tH img = (2 * r)%nat -> tW img = (2 * r)%nat ->
  (a < 975 / 1000 -> exists m, get_aperture axis_len img a = Ok m /\ mask_of img (in_disc (tH img) a 0 0) 1 0 m) /\
  (975 / 1000 <= a -> get_aperture axis_len img a = Ok (build (tB img) (tC img) (tH img) (tW img) (fun _ _ _ _ => 1))).
Proof.
  intros Hr HH HW. unfold get_aperture. split; intros Ha; destruct (Rlt_dec a (975 / 1000)) as [L|L]; try lra; [|reflexivity].
  rewrite (bite_eq img r a (0, 0) Hr HH HW). cbn [bind fst snd]. rewrite tmap_build. eexists. split; [reflexivity|].
  split; [reflexivity|]. split; [apply twf_build|]. intros c i j Hc Hi Hj. rewrite get_build by lia.
  unfold bite_at, in_disc. rewrite <- HH. destruct (Rlt_dec _ _) as [M|M]; split; intros K; try contradiction; lra.
Qed.

Lemma aperture_errors img a : (0 < tC img)%nat -> a < 975 / 1000 ->
  ((tH img < 2)%nat -> get_aperture axis_len img a = Err ZeroDivisionError) /\
  ((2 <= tH img)%nat -> (Nat.odd (tH img) = true \/ tH img <> tW img) -> get_aperture axis_len img a = Err ValueError).
Proof.
  intros HC Ha. unfold get_aperture. destruct (Rlt_dec a (975 / 1000)); [|contradiction]. split.
  - intros H. rewrite (proj1 (bite_errors axis_len img a (0, 0) HC) H). reflexivity.
  - intros H2 HN. rewrite (bite_exact_errors img a (0, 0) HC H2 HN). reflexivity.
Qed.

Lemma double_58 : axis_len_double 29 = 59%nat.
Proof. vm_compute. reflexivity. Qed.

Lemma bite_double img br co : (0 < tC img)%nat -> tH img = 58%nat -> get_bite_mask axis_len_double img br co = Err ValueError.
Proof.
  intros HC HH. apply (proj2 (bite_errors axis_len_double img br co HC)); rewrite HH; [lia| |];
    change (58 / 2)%nat with 29%nat; rewrite double_58; [lia|left; lia].
Qed.

(** ** prep_input *)

Lemma shape4 t B C H W : shape t = (B, C, H, W) -> tB t = B /\ tC t = C /\ tH t = H /\ tW t = W.
Proof. unfold shape. intros E. inversion E. auto. Qed.

Lemma tzip_one f x y C H W : shape x = (1%nat, C, H, W) -> shape y = (1%nat, C, H, W) ->
  exists z, tzip f x y = Ok z /\ shape z = (1%nat, C, H, W) /\
    forall c i j, (c < C)%nat -> (i < H)%nat -> (j < W)%nat -> get z 0 c i j = f (get x 0 c i j) (get y 0 c i j).
Proof.
  intros Hx Hy. apply shape4 in Hx as (X1 & X2 & X3 & X4). apply shape4 in Hy as (Y1 & Y2 & Y3 & Y4).
  unfold tzip. rewrite X1, X2, X3, X4, Y1, Y2, Y3, Y4, !bdim_refl. cbn [bind]. eexists. split; [reflexivity|]. split; [reflexivity|].
  intros c i j Hc Hi Hj. rewrite get_build by lia. rewrite !bget_get by lia. reflexivity.
Qed.

Definition prep_at (img : tensor) (ar br nl : R) (co : R * R) (noise : tensor) (c i j : nat) : R :=
  let r := INR (tH img / 2) in
  get img 0 c i j * (if Rlt_dec ar (975 / 1000) then 1 - bite_at (tH img) ar 0 0 i j else 1) *
    bite_at (tH img) br (fst co * r) (snd co * r) i j + nl * get noise 0 c i j.

Lemma get_tmap f t b c i j : twf t -> (b < tB t)%nat -> (c < tC t)%nat -> (i < tH t)%nat -> (j < tW t)%nat ->
  get (tmap f t) b c i j = f (get t b c i j).
Proof. intros Ht Hb Hc Hi Hj. rewrite tmap_eq_build by exact Ht. rewrite get_build by assumption. reflexivity. Qed.

Lemma prep_one_eq img r ar br nl co noise : (1 <= r)%nat -> tH img = (2 * r)%nat -> tW img = (2 * r)%nat -> tB img = 1%nat ->
  twf noise -> shape noise = shape img ->
  exists x, prep_one axis_len img ar br nl co noise = Ok x /\ shape x = shape img /\
    forall c i j, (c < tC img)%nat -> (i < tH img)%nat -> (j < tW img)%nat -> get x 0 c i j = prep_at img ar br nl co noise c i j.
Proof.
  intros Hr HH HW HB Hn Hs. unfold prep_one. rewrite (bite_eq img r br _ Hr HH HW). cbn [bind fst snd].
  assert (Si : shape img = (1%nat, tC img, tH img, tW img)) by (unfold shape; rewrite HB; reflexivity).
  assert (A : exists a, get_aperture axis_len img ar = Ok a /\ shape a = (1%nat, tC img, tH img, tW img) /\
    forall c i j, (c < tC img)%nat -> (i < tH img)%nat -> (j < tW img)%nat ->
      get a 0 c i j = if Rlt_dec ar (975 / 1000) then 1 - bite_at (tH img) ar 0 0 i j else 1).
  { unfold get_aperture. destruct (Rlt_dec ar (975 / 1000)).
    - rewrite (bite_eq img r ar (0, 0) Hr HH HW). cbn [bind fst snd]. rewrite tmap_build. eexists. split; [reflexivity|].
      split; [reflexivity|]. intros c i j Hc Hi Hj. rewrite get_build by lia. now rewrite <- HH.
    - eexists. split; [reflexivity|]. split; [unfold shape; cbn; now rewrite HB|].
      intros c i j Hc Hi Hj. rewrite get_build by lia. reflexivity. }
  destruct A as (a & -> & Sa & Ga). cbn [bind].
  destruct (tzip_one Rmult img a _ _ _ Si Sa) as (p & -> & Sp & Gp). cbn [bind].
  match goal with |- context [tzip Rmult p ?q] => destruct (tzip_one Rmult p q (tC img) (tH img) (tW img) Sp eq_refl) as (s & -> & Ss & Gs) end.
  cbn [bind].
  assert (Sn : shape (tmap (Rmult nl) noise) = (1%nat, tC img, tH img, tW img)) by (rewrite <- Si, <- Hs; reflexivity).
  destruct (tzip_one Rplus s _ _ _ _ Ss Sn) as (x & -> & Sx & Gx).
  exists x. split; [reflexivity|]. split; [congruence|]. intros c i j Hc Hi Hj.
  rewrite Gx, Gs, Gp, Ga by assumption. unfold prep_at. cbv zeta. rewrite get_build by lia. rewrite <- HH.
  rewrite Si in Hs. apply shape4 in Hs as (N1 & N2 & N3 & N4). rewrite get_tmap by (try exact Hn; lia). reflexivity.
Qed.

Lemma write_eq batch ii x C : tB x = 1%nat -> tC x = C -> (C <= tC batch)%nat -> tH x = tH batch -> tW x = tW batch ->
  exists b', write_batch batch ii C x = Ok b' /\ shape b' = shape batch /\
    forall b c i j, (b < tB batch)%nat -> (c < tC batch)%nat -> (i < tH batch)%nat -> (j < tW batch)%nat ->
      get b' b c i j = if Nat.eqb b ii && Nat.ltb c C then get x 0 c i j else get batch b c i j.
Proof.
  intros X1 X2 HC X3 X4. unfold write_batch. rewrite X1, X2, Nat.min_l by exact HC. rewrite !Nat.eqb_refl. cbn [guard bind orb].
  eexists. split; [reflexivity|]. split; [reflexivity|]. intros b c i j Hb Hc Hi Hj. rewrite get_build by assumption.
  destruct (Nat.ltb_spec c C); destruct (Nat.eqb b ii); cbn [andb]; try reflexivity.
  apply bget_get; lia.
Qed.

Lemma prep_loop_eq img r ar br nl co noise : (1 <= r)%nat -> tH img = (2 * r)%nat -> tW img = (2 * r)%nat -> tB img = 1%nat ->
  (forall k, twf (noise k) /\ shape (noise k) = shape img) ->
  forall n ii batch, (tC img <= tC batch)%nat -> tH batch = tH img -> tW batch = tW img ->
  exists b', prep_loop axis_len img ar br nl co noise n ii batch = Ok b' /\ shape b' = shape batch /\
    forall b c i j, (b < tB batch)%nat -> (c < tC batch)%nat -> (i < tH batch)%nat -> (j < tW batch)%nat ->
      get b' b c i j = if Nat.leb ii b && Nat.ltb b (ii + n) && Nat.ltb c (tC img) then prep_at img ar br nl (co b) (noise b) c i j else get batch b c i j.
Proof.
  intros Hr HH HW HB Hn. induction n as [|n IH]; intros ii batch HC H1 H2; cbn [prep_loop].
  - exists batch. split; [reflexivity|]. split; [reflexivity|]. intros b c i j Hb Hc Hi Hj. rewrite Nat.add_0_r.
    destruct (Nat.leb_spec ii b), (Nat.ltb_spec b ii); cbn [andb]; try reflexivity. lia.
  - destruct (Hn ii) as [Hn1 Hn2].
    destruct (prep_one_eq img r ar br nl (co ii) (noise ii) Hr HH HW HB Hn1 Hn2) as (x & -> & Sx & Gx). cbn [bind].
    apply shape4 in Sx as (X1 & X2 & X3 & X4).
    destruct (write_eq batch ii x (tC img)) as (b1 & -> & S1 & G1); try lia. cbn [bind].
    pose proof S1 as S1'. apply shape4 in S1' as (B1 & B2 & B3 & B4).
    destruct (IH (S ii) b1) as (b' & -> & S' & G'); try lia.
    exists b'. split; [reflexivity|]. split; [congruence|]. intros b c i j Hb Hc Hi Hj.
    rewrite G' by lia. rewrite G1 by assumption.
    destruct (Nat.ltb_spec c (tC img)); rewrite ?andb_true_r, ?andb_false_r; [|reflexivity].
    destruct (Nat.eqb_spec b ii) as [->|N].
    + destruct (Nat.leb_spec (S ii) ii); [lia|]. cbn [andb].
      destruct (Nat.leb_spec ii ii); [|lia]. destruct (Nat.ltb_spec ii (ii + S n)); [|lia]. cbn [andb]. apply Gx; lia.
    + replace (Nat.leb (S ii) b && Nat.ltb b (S ii + n)) with (Nat.leb ii b && Nat.ltb b (ii + S n)); [reflexivity|].
      destruct (Nat.leb_spec (S ii) b), (Nat.leb_spec ii b), (Nat.ltb_spec b (S ii + n)), (Nat.ltb_spec b (ii + S n)); cbn; try reflexivity; lia.
Qed.

Lemma prep_eq img r ext n ar br nl co noise : (1 <= r)%nat -> tH img = (2 * r)%nat -> tW img = (2 * r)%nat -> tB img = 1%nat ->
  (tC img <= ext)%nat -> (forall k, twf (noise k) /\ shape (noise k) = shape img) ->
  exists b', prep_input axis_len img (Some ext) n ar br nl co noise = Ok b' /\ shape b' = (n, ext, tH img, tW img) /\
    forall b c i j, (b < n)%nat -> (c < ext)%nat -> (i < tH img)%nat -> (j < tW img)%nat ->
      get b' b c i j = if Nat.ltb c (tC img) then prep_at img ar br nl (co b) (noise b) c i j else 0.
Proof.
  intros Hr HH HW HB HC Hn. unfold prep_input.
  destruct (prep_loop_eq img r ar br nl co noise Hr HH HW HB Hn n 0 (build n ext (tH img) (tW img) (fun _ _ _ _ => 0))) as (b' & -> & S' & G'); try assumption; try reflexivity.
  exists b'. split; [reflexivity|]. split; [exact S'|]. intros b c i j Hb Hc Hi Hj. rewrite G' by assumption.
  rewrite Nat.add_0_l. destruct (Nat.leb_spec 0 b); [|lia]. destruct (Nat.ltb_spec b n); [|lia]. cbn [andb].
  destruct (Nat.ltb c (tC img)); [reflexivity|]. rewrite get_build by assumption. reflexivity.
Qed.

Lemma prep_default img r n ar br nl co noise : (1 <= r)%nat -> tH img = (2 * r)%nat -> tW img = (2 * r)%nat -> tB img = 1%nat ->
  (2 <= tC img)%nat -> (forall k, twf (noise k) /\ shape (noise k) = shape img) ->
  prep_input axis_len img None (S n) ar br nl co noise = Err RuntimeError.
Proof.
  intros Hr HH HW HB HC Hn. unfold prep_input. cbn [prep_loop].
  destruct (Hn 0%nat) as [Hn1 Hn2].
  destruct (prep_one_eq img r ar br nl (co 0%nat) (noise 0%nat) Hr HH HW HB Hn1 Hn2) as (x & -> & Sx & Gx). cbn [bind].
  apply shape4 in Sx as (X1 & X2 & X3 & X4). unfold write_batch. cbn [build tC tB]. rewrite X1, X2, HB. cbn [Nat.eqb guard bind].
  rewrite Nat.min_r by lia. destruct (Nat.eqb_spec (tC img) 1); [lia|]. reflexivity.
Qed.

Lemma bite_at_01 H br x y i j : bite_at H br x y i j = 0 \/ bite_at H br x y i j = 1.
Proof. unfold bite_at. destruct (Rlt_dec _ _); auto. Qed.

Lemma prep_at_bounds img ar br nl co noise c i j : 0 <= nl -> 0 <= get img 0 c i j <= 1 -> 0 <= get noise 0 c i j <= 1 ->
  0 <= prep_at img ar br nl co noise c i j <= 1 + nl.
Proof.
  intros Hl Hi Hn. unfold prep_at. cbv zeta.
  assert (N : 0 <= nl * get noise 0 c i j <= nl) by (split; [apply Rmult_le_pos; lra|rewrite <- (Rmult_1_r nl) at 2; apply Rmult_le_compat_l; lra]).
  set (g := get img 0 c i j) in *.
  destruct (bite_at_01 (tH img) br (fst co * INR (tH img / 2)) (snd co * INR (tH img / 2)) i j) as [-> | ->];
    destruct (bite_at_01 (tH img) ar 0 0 i j) as [-> | ->]; destruct (Rlt_dec ar (975 / 1000)); lra.
Qed.

(** ** Animations *)

Lemma frame_width n : (N.of_nat n <= 10 ^ 10)%N ->
  exists w, w <> O /\ (forall i, (i < n)%nat -> (N.of_nat i < 10 ^ N.of_nat w)%N) /\
    forall i, frame_name n i = ("frame_" ++ pad w (N.of_nat i) ++ ".png")%string.
Proof.
  intros Hn. unfold frame_name. destruct (Nat.leb_spec (n / 10 + 1) 5) as [L|L].
  - exists 5%nat. split; [lia|]. split; [|reflexivity]. intros i Hi.
    pose proof (Nat.div_mod n 10 ltac:(lia)). pose proof (Nat.mod_upper_bound n 10 ltac:(lia)).
    change (10 ^ N.of_nat 5)%N with 100000%N. lia.
  - exists 10%nat. split; [lia|]. split; [|reflexivity]. intros i Hi.
    change (N.of_nat 10) with 10%N. eapply N.lt_le_trans; [|exact Hn]. lia.
Qed.

Lemma frame_before n i j : (N.of_nat n <= 10 ^ 10)%N -> (i < j < n)%nat -> before (frame_name n i) (frame_name n j).
Proof.
  intros Hn [Hij Hj]. destruct (frame_width n Hn) as (w & Hw & B & E). rewrite !E.
  apply before_prefix. apply before_suffix.
  - rewrite !pad_length; [reflexivity| | | |]; try exact Hw; apply B; lia.
  - apply pad_before; [lia| |exact Hw]. apply B. exact Hj.
Qed.

Lemma frame_png n i : contains "png" (frame_name n i) = true.
Proof.
  apply contains_occurs. unfold frame_name. 
  match goal with |- occurs _ (?a ++ ?b ++ _)%string => exists (a ++ b ++ ".")%string, ""%string end.
  rewrite !append_assoc_s. reflexivity.
Qed.

Lemma frame_inj n i j : frame_name n i = frame_name n j -> i = j.
Proof.
  unfold frame_name. intros E. apply app_inv_l_s in E. apply app_inv_r_s in E. apply pad_inj in E. lia.
Qed.

Lemma dput_names {A} (d : dir A) f c : dget d f = None -> map fst (dput d f c) = (map fst d ++ [f])%list.
Proof.
  induction d as [|[g x] t IH]; cbn; [reflexivity|]. destruct (String.eqb f g); [discriminate|]. intros H. cbn. now rewrite IH.
Qed.

Section Movie.
Context {G I : Type}.
Variables (frame : G -> res G) (dead : G -> bool) (render : G -> I) (n sp : nat) (u : nat -> G) (d0 : dir I).
Hypothesis Hn : (N.of_nat n <= 10 ^ 10)%N.
Hypothesis Hd : forall f, dget d0 f <> None -> contains "png" f = false.

(** The directory after [k] saved frames. *)
Definition frames_upto (k : nat) (d : dir I) : Prop :=
  map fst d = (map fst d0 ++ map (frame_name n) (seq 0 k))%list /\
  forall i, (i < k)%nat -> dget d (frame_name n i) = Some (CArray (render (u i))).

Lemma frames_step k d : frames_upto k d -> frames_upto (S k) (dput d (frame_name n k) (CArray (render (u k)))).
Proof.
  intros [Hm Hg]. assert (Hf : dget d (frame_name n k) = None).
  { destruct (dget d (frame_name n k)) eqn:E; [|reflexivity]. exfalso.
    assert (K : In (frame_name n k) (map fst d)) by (apply dget_in; congruence). rewrite Hm in K. apply in_app_or in K as [K|K].
    - apply dget_in in K. pose proof (Hd _ K) as C. rewrite frame_png in C. discriminate.
    - apply in_map_iff in K as (i & E' & K). apply in_seq in K. apply frame_inj in E'. lia. }
  split.
  - rewrite dput_names by exact Hf. rewrite Hm, seq_S, map_app, app_assoc. reflexivity.
  - intros i Hi. destruct (Nat.eq_dec i k) as [->|N]; [apply dget_same|].
    rewrite dget_other; [apply Hg; lia|]. intros E. apply frame_inj in E. lia.
Qed.

Lemma loop_run m : shown frame dead n sp u m -> forall k step last d, (step + k = n)%nat -> (step <= m)%nat -> frames_upto step d ->
  exists d', frames_loop frame dead render n sp k step last (u step) d =
    Ok (d', if Nat.eqb k 0 then last else Some (if Nat.ltb m n then m else (n - 1)%nat)) /\ frames_upto m d'.
Proof.
  intros (Hmn & Hrun & Hend). induction k as [|k IH]; intros step last d Hk Hs Hf; cbn [frames_loop].
  - exists d. split; [reflexivity|]. assert (step = m) by lia. now subst.
  - destruct (Nat.eq_dec step m) as [->|N].
    + rewrite Hend by lia. exists d. split; [|exact Hf]. destruct (Nat.ltb_spec m n); [reflexivity|lia].
    + destruct (Hrun step ltac:(lia)) as [Hl Hi]. rewrite Hl, Hi. cbn [bind].
      destruct (IH (S step) (Some step) _ ltac:(lia) ltac:(lia) (frames_step step d Hf)) as (d' & E & F).
      exists d'. split; [|exact F]. rewrite E. do 2 f_equal.
      destruct (Nat.eqb_spec k 0) as [K|K]; cbn [Nat.eqb]; [|reflexivity].
      destruct (Nat.ltb_spec m n); [lia|]. f_equal. lia.
Qed.

Lemma sorted_names m : (m <= n)%nat -> StronglySorted not_after (map (frame_name n) (seq 0 m)).
Proof.
  intros Hm. assert (Q : forall a k, (a + k <= n)%nat -> StronglySorted not_after (map (frame_name n) (seq a k))).
  { intros a k. revert a. induction k as [|k IH]; intros a Ha; [constructor|]. cbn [seq map]. constructor; [apply IH; lia|].
    apply Forall_forall. intros f Hf. apply in_map_iff in Hf as (j & <- & Hj). apply in_seq in Hj. right. apply frame_before; [exact Hn|lia]. }
  apply Q. lia.
Qed.

Lemma filter_png_sort l : filter (contains "png") (sort l) = sort (filter (contains "png") l).
Proof.
  symmetry. apply sort_of_perm.
  - pose proof (sort_sorted l) as S. induction S as [|x t S IH F]; [constructor|]. cbn [filter].
    destruct (contains "png" x); [|exact IH]. constructor; [exact IH|]. apply Forall_forall. intros y Hy.
    apply filter_In in Hy as [Hy _]. rewrite Forall_forall in F. exact (F y Hy).
  - pose proof (sort_perm l) as P. induction P; cbn [filter].
    + constructor.
    + destruct (contains "png" x); [now constructor|assumption].
    + destruct (contains "png" x), (contains "png" y); try reflexivity. apply perm_swap.
    + etransitivity; eassumption.
Qed.

Lemma open_all_filter {X} (d : dir X) fs : open_all d fs = open_all d (filter (contains "png") fs).
Proof.
  induction fs as [|f t IH]; [reflexivity|]. cbn [open_all filter]. destruct (contains "png" f) eqn:E; [|exact IH].
  cbn [open_all]. rewrite E, IH. reflexivity.
Qed.

Lemma open_frames m d : frames_upto m d -> (m <= n)%nat -> open_all d (sort (map fst d)) = Ok (map (fun i => render (u i)) (seq 0 m)).
Proof.
  intros [Hm Hg] Hle. rewrite open_all_filter, filter_png_sort, Hm, filter_app.
  assert (E1 : filter (contains "png") (map fst d0) = []).
  { assert (Q : forall l, (forall f, In f l -> contains "png" f = false) -> filter (contains "png") l = []).
    { induction l as [|a l IH]; intros H; [reflexivity|]. cbn [filter]. rewrite (H a) by now left. apply IH. intros; apply H; now right. }
    apply Q. intros f Hf. apply Hd. now apply dget_in. }
  assert (E2 : forall l, filter (contains "png") (map (frame_name n) l) = map (frame_name n) l).
  { intros l. induction l as [|a l IH]; [reflexivity|]. cbn [map filter]. rewrite frame_png. now rewrite IH. }
  rewrite E1, E2. cbn [app]. rewrite (sort_of_perm _ _ (sorted_names m Hle) (Permutation_refl _)).
  assert (Q : forall l, (forall i, In i l -> (i < m)%nat) -> open_all d (map (frame_name n) l) = Ok (map (fun i => render (u i)) l)).
  { intros l. induction l as [|a l IH]; intros H; [reflexivity|]. cbn [map open_all]. rewrite frame_png. unfold open_image.
    rewrite Hg by (apply H; now left). cbn [bind]. rewrite IH by (intros; apply H; now right). reflexivity. }
  apply Q. intros i Hi. apply in_seq in Hi. lia.
Qed.

Lemma movie m : shown frame dead n sp u m ->
  save_fig_sequence frame dead render n sp (u 0%nat) d0 =
  if Nat.eqb n 0 then Err UnboundLocalError
  else if Nat.eqb m 0 || Nat.eqb n 1 then Ok None
  else Ok (Some (render (u 0%nat) :: map (fun i => render (u i)) (seq 0 m))).
Proof.
  intros Hs. unfold save_fig_sequence.
  assert (F0 : frames_upto 0 d0). { split; [cbn; now rewrite app_nil_r|]. intros i Hi. lia. }
  destruct (loop_run m Hs n 0 None d0 ltac:(lia) ltac:(lia) F0) as (d' & -> & F). cbn [bind snd fst].
  destruct (Nat.eqb_spec n 0) as [|N0]; [reflexivity|]. destruct Hs as (Hmn & _ & _).
  destruct (Nat.eqb_spec m 0) as [->|M0]; cbn [orb].
  - destruct (Nat.ltb_spec 0 n); [reflexivity|lia].
  - assert (L : Nat.ltb 0 (if Nat.ltb m n then m else (n - 1)%nat) = negb (Nat.eqb n 1)).
    { destruct (Nat.ltb_spec m n), (Nat.eqb_spec n 1); cbn [negb]; try (apply Nat.ltb_lt; lia); try (apply Nat.ltb_ge; lia). }
    rewrite L. destruct (Nat.eqb_spec n 1); cbn [negb]; [reflexivity|].
    unfold make_gif. rewrite (open_frames m d' F Hmn). cbn [bind].
    destruct m as [|m]; [lia|]. reflexivity.
Qed.
End Movie.
