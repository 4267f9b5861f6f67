(** The same with states that are there at once. *)
From Verif Require Import Base GraphModel LockModel FutureModel.

Section Future.
Context {S : Type}.
Variable ninit : nat -> list S -> S.
Variable kind : nat -> nat.
Definition e_step (m : model S) (o : fop S) : option (model S * (bool * option S)) :=
  match o with
  | FFuture (Some sts) => Some (Model (mg m) (mlocks m) sts, (true, None))
  | FFuture None => Some (m, (true, None))
  | FOp (MRead n i) => match read_state ninit m n i with Some (m', Some v) => Some (m', (true, Some v)) | Some (m', None) => Some (m', (false, None)) | None => None end
  | FOp o => match m_step ninit kind m o with Some (m', b) => Some (m', (b, None)) | None => None end
  end.
Fixpoint e_run (m : model S) (os : list (fop S)) : option (model S * list (bool * option S)) :=
  match os with
  | [] => Some (m, [])
  | o :: os' => match e_step m o with
                | Some (m1, s) => match e_run m1 os' with Some (m2, l) => Some (m2, s :: l) | None => None end
                | None => None
                end
  end.
(** Futures that succeed. *)
Definition succeeds (o : fop S) : Prop := match o with FFuture None => False | _ => True end.
(** The model as it will be once asked for its states. *)
Definition settled (f : fmodel S) : model S := match fpend f with Some (Some sts) => Model (mg (fm f)) (mlocks (fm f)) sts | _ => fm f end.
(** The futures accepted in a run: those whose [from_future] raised no exception. *)
Fixpoint accepted (os : list (fop S)) (l : list (bool * option S)) : list (outcome S) :=
  match os, l with
  | FFuture r :: os', (true, _) :: l' => r :: accepted os' l'
  | _ :: os', _ :: l' => accepted os' l'
  | _, _ => []
  end.
End Future.
