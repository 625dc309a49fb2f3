(** Model of BaseEstimator (kd/base.py:13-116): get_params, set_params, __repr__.
    Objects live in a heap, so one estimator may be a parameter of two others.  Only estimators
    (objects with get_params) and plain values are distinguished; attribute lookup does not fall
    back on class attributes.  The recursion depth is an argument; RecursionError is OtherError. *)
From Coq Require Import Ascii.
From Verif Require Import Base.
Local Open Scope string_scope.
Local Open Scope list_scope.

(** a dict as the association list of its items, in insertion order *)
Fixpoint dget {B} (d : list (string * B)) (k : string) : option B :=
  match d with [] => None | (x, v) :: d' => if String.eqb x k then Some v else dget d' k end.
Fixpoint dset {B} (d : list (string * B)) (k : string) (v : B) : list (string * B) :=
  match d with [] => [(k, v)] | (x, w) :: d' => if String.eqb x k then (x, v) :: d' else (x, w) :: dset d' k v end.
(** out.update(items) *)
Definition dupdate {B} (d items : list (string * B)) : list (string * B) := fold_left (fun d p => dset d (fst p) (snd p)) items d.

(** a plain value (a number, a string, None ...), or a reference to an estimator *)
Inductive value := Atom (n : nat) | Ref (o : nat).
(** the attributes of every object *)
Definition heap := nat -> list (string * value).
Definition hset (h : heap) (o : nat) (k : string) (v : value) : heap :=
  fun x => if Nat.eqb x o then dset (h o) k v else h x.

(** key.partition('__'): the part before the first '__', and the part after it if there is one *)
Fixpoint partition (s : string) : string * option string :=
  match s with
  | EmptyString => (EmptyString, None)
  | String c s' =>
      match s' with
      | String d s'' => if Ascii.eqb c "_"%char && Ascii.eqb d "_"%char then (EmptyString, Some s'')
                        else let '(a, r) := partition s' in (String c a, r)
      | EmptyString => (String c EmptyString, None)
      end
  end.

Section Estimator.
(** The names _get_param_names returns for an object's class (base.py:86-108): the constructor's
    parameters without self and **kwargs, sorted; RuntimeError for *args. *)
Variable names : nat -> res (list string).

(** get_params (base.py:33-51) *)
Fixpoint get_params (fuel : nat) (h : heap) (o : nat) (deep : bool) : res (list (string * value)) :=
  match fuel with
  | 0 => Err OtherError
  | S n =>
      do ks <- names o ;
      fold_left (fun acc key =>
        do out <- acc ;
        match dget (h o) key with
        | None => Err AttributeError
        | Some v =>
            do out' <- match v with
                       | Ref x => if deep then do items <- get_params n h x true ; Ok (dupdate out (map (fun p => ((key ++ "__" ++ fst p)%string, snd p)) items)) else Ok out
                       | Atom _ => Ok out
                       end ;
            Ok (dset out' key v)
        end) ks (Ok [])
  end.
(** __repr__ (base.py:110-116) formats get_params(deep=False) *)
Definition repr (h : heap) (o : nat) : res (list (string * value)) := get_params 1 h o false.

(** the first loop of set_params (base.py:70-80): the heap, the updated valid_params and the
    nested parameters collected so far *)
Fixpoint assign (h : heap) (o : nat) (valid : list (string * value)) (nested : list (string * list (string * value))) (ps : list (string * value))
  : heap * res (list (string * value) * list (string * list (string * value))) :=
  match ps with
  | [] => (h, Ok (valid, nested))
  | (k, v) :: ps' =>
      let '(key, sub) := partition k in
      match dget valid key with
      | None => (h, Err ValueError)
      | Some _ =>
          match sub with
          | Some s => assign h o valid (dset nested key (dset (match dget nested key with Some d => d | None => [] end) s v)) ps'
          | None => assign (hset h o key v) o (dset valid key v) nested ps'
          end
      end
  end.
(** set_params (base.py:53-85); the heap is returned even when an exception is raised *)
Fixpoint set_params (fuel : nat) (h : heap) (o : nat) (ps : list (string * value)) : heap * res unit :=
  match ps with
  | [] => (h, Ok tt)
  | _ =>
      match fuel with
      | 0 => (h, Err OtherError)
      | S n =>
          match get_params n h o true with
          | Err e => (h, Err e)
          | Ok valid =>
              match assign h o valid [] ps with
              | (h', Err e) => (h', Err e)
              | (h', Ok (valid', nested)) =>
                  fold_left (fun acc kd =>
                    match acc with
                    | (h1, Err e) => (h1, Err e)
                    | (h1, Ok _) =>
                        match dget valid' (fst kd) with
                        | Some (Ref x) => set_params n h1 x (snd kd)
                        | Some (Atom _) => (h1, Err AttributeError)
                        | None => (h1, Err KeyError)
                        end
                    end) nested (h', Ok tt)
              end
          end
      end
  end.
End Estimator.

(** ** Specification *)
(** A parameter name without '__' that does not end with '_': its own prefix of a nested name. *)
Fixpoint clean (s : string) : bool :=
  match s with
  | EmptyString => false
  | String c s' => match s' with
                   | EmptyString => negb (Ascii.eqb c "_"%char)
                   | String d _ => negb (Ascii.eqb c "_"%char && Ascii.eqb d "_"%char) && clean s'
                   end
  end.
(** the nested name of a path of parameter names *)
Fixpoint join (p : list string) : string :=
  match p with [] => "" | [k] => k | k :: p' => (k ++ "__" ++ join p')%string end.
(** the parameter at the end of a path of names, starting at object o *)
Fixpoint lookup (names : nat -> res (list string)) (h : heap) (o : nat) (p : list string) : option value :=
  match p with
  | [] => None
  | k :: p' =>
      match names o with
      | Ok ks => if existsb (String.eqb k) ks then
                   match dget (h o) k, p' with
                   | Some v, [] => Some v
                   | Some (Ref x), _ => lookup names h x p'
                   | _, _ => None
                   end
                 else None
      | Err _ => None
      end
  end.
(** [x] is the value of parameter k of y *)
Definition child (names : nat -> res (list string)) (h : heap) (y : nat) (k : string) (x : nat) : Prop :=
  exists ks, names y = Ok ks /\ In k ks /\ dget (h y) k = Some (Ref x).
Inductive reach (names : nat -> res (list string)) (h : heap) (o : nat) : nat -> Prop :=
| reach_self : reach names h o o
| reach_step k x y : child names h o k x -> reach names h x y -> reach names h o y.
(** the estimators below [o] form a tree: no sharing, no cycle *)
Definition unshared (names : nat -> res (list string)) (h : heap) (o : nat) : Prop :=
  forall y k x, reach names h o y -> child names h y k x ->
    ~ reach names h x y /\ forall k2 x2 z, child names h y k2 x2 -> k <> k2 -> reach names h x z -> ~ reach names h x2 z.
(** every estimator below [o] has clean, distinct parameter names *)
Definition well_named (names : nat -> res (list string)) (h : heap) (o : nat) : Prop :=
  forall y ks, reach names h o y -> names y = Ok ks -> NoDup ks /\ Forall (fun k => clean k = true) ks.
(** p' is p or extends it *)
Definition extends (p p' : list string) : Prop := exists r, p' = (p ++ r)%list.

(** ** The constructors of the library's estimators *)
(** KD_SGA (kd_sga.py:25-43), KD_Discover (kd_discover.py:71-80), KD_DLGA (kd_dlga.py:18),
    KD_PySR (kd_pysr.py:39-46), KD_Discover_Regression (kd_discover_regression.py:31): sorted
    parameter names, and the attributes the constructor sets *)
Definition sga_params : list string := ["delete_edges"; "depth"; "lhs_axis"; "max_epoch"; "num"; "p_cro"; "p_mute"; "p_var"; "primary_spatial_axis"; "seed"; "sga_run"; "target_field"; "use_autograd"; "use_metadata"; "width"].
Definition sga_attrs : list string := ["sga_run"; "num"; "depth"; "width"; "p_var"; "p_mute"; "p_cro"; "seed"; "use_autograd"; "max_epoch"; "use_metadata"; "delete_edges"; "target_field"; "lhs_axis"; "primary_spatial_axis"].
Definition pysr_params : list string := ["binary_operators"; "extra_model_kwargs"; "niterations"; "unary_operators"].
Definition pysr_attrs : list string := ["niterations"; "binary_operators"; "unary_operators"; "extra_model_kwargs"; "_model"; "best_equation_"; "_sympy_expr_"; "X_train_"; "y_train_"].
Definition discover_params : list string := ["binary_operators"; "config_out"; "core_num"; "n_iterations"; "n_samples_per_batch"; "out_path"; "seed"; "unary_operators"].
Definition dlga_params : list string := ["epi"; "input_dim"; "operators"; "verbose"].
(** the attributes of KD_Discover (kd_discover.py:96-105, 288-296) and of KD_DLGA (dlga.py:78-111, kd_dlga.py:19-24) *)
Definition discover_attrs : list string := ["n_iterations"; "n_samples_per_batch"; "operator"; "out_path"; "dataset"; "seed"; "core_num"; "base_config_file"; "config"; "config_task"; "_base_function_set"; "config_prior"; "config_state_manager"; "config_controller"; "config_gp_agg"; "config_training"].
Definition dlga_attrs : list string := ["user_operators"; "library_size"; "verbose"; "max_length"; "partial_prob"; "genes_prob"; "mutate_rate"; "delete_rate"; "add_rate"; "pop_size"; "n_generations"; "train_ratio"; "valid_ratio"; "device"; "Net"; "max_iter"; "eq_latex"; "epi"; "fitness_history"; "train_loss_history"; "val_loss_history"; "metadata"; "evolution_history"; "complexity_history"; "equations_"; "best_equation_"].
(** an object with the given attributes, all plain values *)
Definition fresh (attrs : list string) : list (string * value) := map (fun a => (a, Atom 0)) attrs.
