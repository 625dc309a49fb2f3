(** Model of the merging of a user configuration into the defaults: safe_merge_dicts
    (kd/model/discover/utils.py:252-277), called by KD_Discover.set_config
    (kd/model/kd_discover.py:274-296).  Aliasing between the result and the user's dictionary is not
    modelled. *)
From Verif Require Import Base.

(** A JSON value as far as merging goes: null, a dictionary, or anything else. *)
Inductive cfg := Null | Atom (a : nat) | Dict (l : list (string * cfg)).

(** dict.get(key) *)
Fixpoint find (k : string) (l : list (string * cfg)) : option cfg :=
  match l with [] => None | (k', v) :: l' => if String.eqb k' k then Some v else find k l' end.
(** d[key] = value *)
Fixpoint put (k : string) (v : cfg) (l : list (string * cfg)) : list (string * cfg) :=
  match l with
  | [] => [(k, v)]
  | (k', v') :: l' => if String.eqb k' k then (k, v) :: l' else (k', v') :: put k v l'
  end.

(** safe_merge_dicts(base, Dict l), utils.py:267-277.  [py310]: the interpreter is Python 3.10 or
    later, where collections.Mapping does not exist. *)
Section Merge.
Variable py310 : bool.
Fixpoint merge (base : cfg) (upd : cfg) {struct upd} : res cfg :=
  match base, upd with
  | Null, _ => Ok upd
  | _, Null => Ok base
  | _, Atom _ => Err AttributeError                         (* update_dict.items() *)
  | _, Dict l =>
      (fix go (l : list (string * cfg)) (base : cfg) : res cfg :=
         match l with
         | [] => Ok base
         | (k, v) :: l' =>
             if py310 then Err AttributeError               (* collections.Mapping *)
             else
               match v with
               | Dict _ =>
                   match base with
                   | Dict b => do m <- merge (match find k b with Some c => c | None => Dict [] end) v ;
                               go l' (Dict (put k m b))
                   | _ => Err AttributeError                (* base_dict.get *)
                   end
               | _ => match base with
                      | Dict b => go l' (Dict (put k v b))
                      | _ => Err TypeError                  (* item assignment *)
                      end
               end
         end) l base
  end.
End Merge.

(** set_config, kd_discover.py:280-288: None means no changes. *)
Definition set_config (py310 : bool) (base : cfg) (user : option cfg) : res cfg :=
  merge py310 base (match user with None => Dict [] | Some u => u end).

(** ** A configuration given as the path of a file: load_config (kd/model/discover/config/__init__.py:32-59) *)
(** user_config[a][b] with a fallback on KeyError; a section that is not a dictionary is a TypeError *)
Definition entry (user : list (string * cfg)) (a b : string) : res (option cfg) :=
  match find a user with
  | None => Ok None
  | Some (Dict d) => Ok (find b d)
  | Some _ => Err TypeError
  end.
(** open() of a file of the package, read as JSON *)
Definition open_file (files : list (string * cfg)) (name : string) : res cfg :=
  match find name files with Some c => Ok c | None => Err OtherError end.        (* FileNotFoundError *)
(** user_config["prior"]["language_model"]["on"], false if missing *)
Definition language_on (truthy : cfg -> bool) (user : list (string * cfg)) : res bool :=
  do s <- entry user "prior" "language_model" ;
  match s with
  | None => Ok false
  | Some (Dict d) => Ok (match find "on" d with Some c => truthy c | None => false end)
  | Some _ => Err TypeError
  end.
(** get_base_config (8-29); [listed]: the task type is 'regression', 'PDE' or None *)
Definition get_base_config (py310 : bool) (files : list (string * cfg)) (listed language : bool) : res cfg :=
  do common <- open_file files "config_common.json" ;
  do task <- open_file files (if listed then "config_regression.json" else "config_common.json") ;
  do task' <- (if language then do l <- open_file files "config_language.json" ; merge py310 task l else Ok task) ;
  merge py310 common task'.
(** load_config (32-59); [listed] and [truthy] interpret the atoms *)
Definition load_config (py310 : bool) (files : list (string * cfg)) (listed truthy : cfg -> bool) (user : list (string * cfg)) : res cfg :=
  do t <- entry user "task" "task_type" ;
  do lang <- language_on truthy user ;
  do base <- get_base_config py310 files (match t with None => true | Some c => listed c end) lang ;
  merge py310 base (Dict user).
(** set_config with the path of a readable file containing the dictionary [user] (kd_discover.py:280-287) *)
Definition set_config_path (py310 : bool) (files : list (string * cfg)) (listed truthy : cfg -> bool) (base : cfg) (user : list (string * cfg)) : res cfg :=
  do c <- load_config py310 files listed truthy user ;
  merge py310 base c.
(** the files of kd/model/discover/config in the repository *)
Definition shipped_names : list string := ["config_pde.json"; "config_pde_pinn.json"; "config_regression.json"]%string.
