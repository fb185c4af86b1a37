(** * Model of what scoring and decoding leave behind. *)
From Verif Require Export Interrupt Vbase Vcat Vgauss.

(** [score], [score_samples], [predict], [predict_proba] and [decode] assign
    attributes in [_check] only (base.py:241-251, 253-288, 290-298, 343-356); the
    call of [_check] follows the test whether the model is fitted, and [_decode_map]
    repeats both for every sequence.  [aic] and [bic] (base.py:979-1028) read the
    sizes and call [score].  [query h] is the estimator after such a call, whether
    it returned or raised: if [_check] raises, it has assigned what [check_left]
    says; whatever raises after it has assigned nothing more. *)
Definition query {P X St G} (E : emclass P X St) (L : leftclass P X St G) (fp : fpmode) (h : hmm P) : hmm P :=
  match h_start h with
  | None => h
  | Some _ => match check E fp h with Ok h' => h' | Err _ => check_left L fp h end
  end.
(** The same for an estimator with its generator, which none of these calls uses. *)
Definition queried {P X St G} (E : emclass P X St) (L : leftclass P X St G) (fp : fpmode) (e : est P G) : est P G :=
  Est (query E L fp (e_hmm e)) (e_rs e).

(** The variational classes.  [n_features] when the subclass's part of [_check]
    raises: vhmm.py:182-196 assigns it after comparing the two shapes,
    VariationalGaussianHMM (vhmm.py:583-651) never does. *)
Definition vcat_nf_left (c : cfg) (nf : option nat) (p : vcatp) : option nat :=
  match nf, vk_prior p, vk_post p with
  | None, Some pr, Some po =>
      if Nat.eqb (nrow pr) (nrow po) && Nat.eqb (ncol pr) (ncol po) then Some (ncol po) else None
  | _, _, _ => nf
  end.
Definition vg_nf_left (c : cfg) (nf : option nat) (p : vgp) : option nat := nf.
Definition vquery {P X St} (V : vclass P X St) (left : cfg -> option nat -> P -> option nat) (fp : fpmode)
    (v : vhmm P) : vhmm P :=
  match h_start (v_h v) with
  | None => v
  | Some _ =>
      match vcheck V fp v with
      | Ok v' => v'
      | Err _ =>
          match (if vc_super_check V then vbase_check v else Ok tt) with
          | Err _ => v
          | Ok _ => with_h v (set_em (v_h v) (left (h_cfg (v_h v)) (h_nfeat (v_h v)) (h_em (v_h v))) (h_em (v_h v)))
          end
      end
  end.
Definition vqueried {P X St G} (V : vclass P X St) (left : cfg -> option nat -> P -> option nat) (fp : fpmode)
    (e : vest P G) : vest P G := VEst (vquery V left fp (ve_v e)) (ve_rs e).
