(** Square systems of linear equations: without a kernel there is exactly one solution. *)
From Coq Require Import Reals Lra Lia Arith.
From Coquelicot Require Import Coquelicot.
From Verif Require Import Calc Grid_Spec.
Local Open Scope R_scope.

Definition skip (p k : nat) : nat := if (k <? p)%nat then k else S k.
Lemma vsum_skip m p F : (p <= m)%nat -> vsum (S m) F = F p + vsum m (fun k => F (skip p k)).
Proof.
  induction m as [|m IH]; intro H.
  - replace p with 0%nat by lia. cbn. ring.
  - destruct (Nat.eq_dec p (S m)) as [->|D].
    + rewrite (vsum_ext (S m) (fun k => F (skip (S m) k)) F).
      * change (vsum (S (S m)) F) with (vsum (S m) F + F (S m)). ring.
      * intros k Hk. unfold skip. destruct (Nat.ltb_spec k (S m)); [reflexivity|lia].
    + change (vsum (S (S m)) F) with (vsum (S m) F + F (S m)). rewrite IH by lia. cbn [vsum].
      assert (E : skip p m = S m) by (unfold skip; destruct (Nat.ltb_spec m p); [lia|reflexivity]). rewrite E. ring.
Qed.
Lemma find_nonzero m (a : nat -> R) : (exists p, (p < m)%nat /\ a p <> 0) \/ (forall p, (p < m)%nat -> a p = 0).
Proof.
  induction m as [|m [(p & H & A)|IH]]; [right; intros; lia|left; exists p; split; [lia|exact A]|].
  destruct (Req_EM_T (a m) 0) as [E|E].
  - right. intros p Hp. destruct (Nat.eq_dec p m) as [->|D]; [exact E|apply IH; lia].
  - left. exists m. split; [lia|exact E].
Qed.
(** More unknowns than equations. *)
Lemma dependent n : forall A : nat -> nat -> R, exists w : vec, (exists k, (k <= n)%nat /\ w k <> 0) /\
  forall r, (r < n)%nat -> vsum (S n) (fun k => A r k * w k) = 0.
Proof.
  induction n as [|n IH]; intro A.
  - exists (fun _ => 1). split; [exists 0%nat; split; [lia|lra]|]. intros; lia.
  - destruct (find_nonzero (S (S n)) (A n)) as [(p & Hp & Ap)|Z].
    + destruct (IH (fun r k => A r (skip p k) - A r p * A n (skip p k) / A n p)) as (w & (k & Hk & Wk) & H).
      set (t := - vsum (S n) (fun k => A n (skip p k) * w k) / A n p).
      set (w' := fun c => if (c <? p)%nat then w c else if Nat.eqb c p then t else w (c - 1)%nat).
      assert (Wp : w' p = t) by (unfold w'; rewrite Nat.ltb_irrefl, Nat.eqb_refl; reflexivity).
      assert (Ws : forall c, w' (skip p c) = w c).
      { intro c. unfold w', skip. destruct (Nat.ltb_spec c p) as [L|L].
        - destruct (Nat.ltb_spec c p); [reflexivity|lia].
        - destruct (Nat.ltb_spec (S c) p); [lia|]. destruct (Nat.eqb_spec (S c) p); [lia|]. f_equal. lia. }
      exists w'. split.
      * exists (skip p k). rewrite Ws. split; [unfold skip; destruct (k <? p)%nat; lia|exact Wk].
      * intros r Hr. rewrite (vsum_skip (S n) p) by lia. rewrite Wp.
        rewrite (vsum_ext _ _ (fun c => A r (skip p c) * w c)) by (intros; rewrite Ws; reflexivity).
        destruct (Nat.eq_dec r n) as [->|D]; [unfold t; field; exact Ap|].
        specialize (H r ltac:(lia)).
        rewrite (vsum_ext _ _ (fun c => A r (skip p c) * w c + (- (A r p / A n p)) * (A n (skip p c) * w c))) in H
          by (intros; field; exact Ap).
        rewrite vsum_plus, vsum_scal in H. unfold t. rewrite <- H. field. exact Ap.
    + destruct (IH A) as (w & (k & Hk & Wk) & H).
      exists (fun c => if (c <=? n)%nat then w c else 0). split.
      * exists k. destruct (Nat.leb_spec k n); [split; [lia|exact Wk]|lia].
      * intros r Hr. change (vsum (S (S n)) (fun c => A r c * (if (c <=? n)%nat then w c else 0)))
          with (vsum (S n) (fun c => A r c * (if (c <=? n)%nat then w c else 0)) + A r (S n) * (if (S n <=? n)%nat then w (S n) else 0)).
        assert (E : (S n <=? n)%nat = false) by (apply Nat.leb_gt; lia). rewrite E.
        rewrite (vsum_ext (S n) _ (fun c => A r c * w c)) by (intros c Hc; destruct (Nat.leb_spec c n); [reflexivity|lia]).
        destruct (Nat.eq_dec r n) as [->|D]; [|rewrite H by lia; ring].
        rewrite (vsum_ext (S n) _ (fun _ => 0)) by (intros c Hc; rewrite Z by lia; ring). rewrite vsum_zero. ring.
Qed.
Lemma solvable n A (b : vec) : ~ singular n A -> exists w : vec, forall r, (r < n)%nat -> vsum n (fun k => A r k * w k) = b r.
Proof.
  intro NS. destruct (dependent n (fun r k => if (k <? n)%nat then A r k else - b r)) as (w & (k & Hk & Wk) & H).
  assert (H' : forall r, (r < n)%nat -> vsum n (fun c => A r c * w c) = b r * w n).
  { intros r Hr. specialize (H r Hr). cbn [vsum] in H. rewrite Nat.ltb_irrefl in H.
    rewrite (vsum_ext n _ (fun c => A r c * w c)) in H by (intros c Hc; destruct (Nat.ltb_spec c n); [reflexivity|lia]). lra. }
  destruct (Req_EM_T (w n) 0) as [E|E].
  - exfalso. apply NS. exists w. split.
    + exists k. split; [|exact Wk]. destruct (Nat.eq_dec k n) as [->|D]; [contradiction|lia].
    + intros r Hr. rewrite H' by exact Hr. rewrite E. ring.
  - exists (fun c => / w n * w c). intros r Hr.
    rewrite (vsum_ext n _ (fun c => / w n * (A r c * w c))) by (intros; ring). rewrite vsum_scal, H' by exact Hr. field. exact E.
Qed.
Lemma injective n A (w w' : vec) : ~ singular n A -> (forall r, (r < n)%nat -> vsum n (fun k => A r k * w k) = vsum n (fun k => A r k * w' k)) ->
  forall k, (k < n)%nat -> w k = w' k.
Proof.
  intros NS H k Hk. destruct (Req_EM_T (w k - w' k) 0) as [E|E]; [lra|]. exfalso. apply NS.
  exists (fun c => w c - w' c). split; [exists k; split; assumption|]. intros r Hr.
  rewrite (vsum_ext n _ (fun c => A r c * w c + (-1) * (A r c * w' c))) by (intros; ring). rewrite vsum_plus, vsum_scal, H by exact Hr. ring.
Qed.
