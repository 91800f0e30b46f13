(** Model of mixtera/utils/dataset_utils.py: how handle_mixtera_checkpoint and handle_mixtera_feedback find the Mixtera
    dataset in whatever data loader, dataset or generator the training framework hands them.

    Simplifications.  Python objects are the nodes of a finite graph that does not change during the search; attributes
    that raise are those whose value is None here; objects that are created by getattr itself and freed again (so that
    their id can be reused) are not modelled.  [limit] is the number of nested calls Python allows. *)
From Verif Require Import Base MixtureKeyModel UtilsModel ChunkGenModel.
Open Scope Z_scope.

(** What the search distinguishes about an object: a MixteraTorchDataset; a MixteraHFDataset; a _MixteraHFIterable (which
    is a MixteraTorchDataset too); a Hugging Face IterableDataset; a list, tuple or set; a dict; an object with attributes of
    its own; any other. *)
(** The classes told apart by isinstance/hasattr in dataset_utils.py 29, 43-55, 98, 160, 167, 196-199. *)
Inductive kind := KTorch | KHfDataset | KHfIterable | KHfOther | KSeq (items : list nat) | KDict (values : list nat) | KInstance | KAtom.
(** dataset_utils.py 32-41: one attribute of an object. *)
Record attr := Attr { a_special : bool; a_value : option nat }.       (** dunder name; the value, unless getattr raises *)
(** dataset_utils.py 32, 102-107: an object as the search sees it. *)
Record obj := Obj { o_kind : kind; o_attrs : list attr; o_ex1 : option nat; o_ex2 : option nat }.   (** _ex_iterable, ex_iterable *)
(** dataset_utils.py 63-109: the objects the search can reach, by number. *)
Definition graph := nat -> obj.

(** dataset_utils.py 29, 43, 160: isinstance(.., MixteraTorchDataset). *)
Definition is_torch (k : kind) : bool := match k with KTorch | KHfIterable => true | _ => false end.
(** dataset_utils.py 98. *)
Definition is_hf (k : kind) : bool := match k with KHfDataset | KHfIterable => true | _ => false end.
(** dataset_utils.py 24-27, 94-96: [id(obj) in visited]. *)
Definition visited_mem (o : nat) (l : list nat) : bool := existsb (Nat.eqb o) l.

(** dataset_utils.py 43-58: an attribute is the dataset, or something to search. *)
Inductive action := Hit (v : nat) | Visit (v : nat).
(** dataset_utils.py 33-58: what is done for the attributes of an object, in order. *)
Definition attr_actions (g : graph) (a : attr) : list action :=
  if a_special a then [] else
  match a_value a with
  | None => []
  | Some v => if is_torch (o_kind (g v)) then [Hit v]
              else match o_kind (g v) with
                   | KSeq items | KDict items => map Visit items
                   | KAtom => []
                   | _ => [Visit v]
                   end
  end.
(** dataset_utils.py 32-58: all attributes. *)
Definition actions (g : graph) (o : nat) : list action := flat_map (attr_actions g) (o_attrs (g o)).

(** dataset_utils.py 9-60 _find_mixtera_torch_dataset_in_attrs; RecursionError is [None]. *)
Fixpoint find_in (limit : nat) (g : graph) (visited : list nat) (o : nat) : option (list nat * option nat) :=
  match limit with
  | O => None
  | S limit' =>
      if visited_mem o visited then Some (visited, None)
      else
        let visited := o :: visited in
        if is_torch (o_kind (g o)) then Some (visited, Some o)
        else
          (fix go (l : list action) (visited : list nat) : option (list nat * option nat) :=
             match l with
             | [] => Some (visited, None)
             | Hit v :: _ => Some (visited, Some v)
             | Visit v :: l' => match find_in limit' g visited v with
                                | None => None
                                | Some (visited, Some r) => Some (visited, Some r)
                                | Some (visited, None) => go l' visited
                                end
             end) (actions g o) visited
  end.

(** dataset_utils.py 63-109 _get_mixtera_hf_dataset_or_client_from_iterabledataset; [fuel] bounds the iterations, [None]
    if they were not enough. *)
(** dataset_utils.py 102-107: push an attribute if it is there. *)
Definition olist (o : option nat) : list nat := match o with Some x => [x] | None => [] end.
(** dataset_utils.py 89-109: [stack] is to_visit (the last element of the list is the head here). *)
Fixpoint hf_find (fuel : nat) (g : graph) (visited stack : list nat) : option (option nat) :=
  match fuel with
  | O => None
  | S fuel' =>
      match stack with
      | [] => Some None
      | o :: stack' =>
          if visited_mem o visited then hf_find fuel' g visited stack'
          else if is_hf (o_kind (g o)) then Some (Some o)
          else hf_find fuel' g (o :: visited) (olist (o_ex2 (g o)) ++ olist (o_ex1 (g o)) ++ stack')
      end
  end.

(** What is passed in: a DataLoader or Dataset (with the dataset), a generator with a DataLoader among its locals (with the
    loader's dataset), or something else (which is then treated as the dataset). *)
(** dataset_utils.py 134-158: what the caller passes. *)
Inductive given := GLoader (dataset : nat) | GDataset (o : nat) | GGenerator (dataset : nat) | GOther (o : nat).
(** dataset_utils.py 134-158: [dataset]. *)
Definition dataset_of (x : given) : nat := match x with GLoader d | GDataset d | GGenerator d | GOther d => d end.
(** dataset_utils.py 167: isinstance(.., datasets.IterableDataset). *)
Definition is_iterable_dataset (k : kind) : bool := match k with KHfDataset | KHfOther => true | _ => false end.

(** dataset_utils.py 112-203 _recover_mixtera_dataset; [has_datasets]: the datasets library can be imported. *)
Inductive recovered := Found (o : nat) | Nothing | Raised | OutOfFuel.
(** dataset_utils.py 112-203 _recover_mixtera_dataset. *)
Definition recover (limit fuel : nat) (has_datasets : bool) (g : graph) (x : given) : recovered :=
  let d := dataset_of x in
  if is_torch (o_kind (g d)) then Found d                                            (* 160 *)
  else if negb has_datasets then Nothing                                             (* 161-165 *)
  else if negb (is_iterable_dataset (o_kind (g d))) then                             (* 167-179 *)
    match find_in limit g [] d with
    | None => Raised
    | Some (_, Some o) => Found o
    | Some (_, None) => Nothing
    end
  else match hf_find fuel g [] [d] with                                              (* 181-189 *)
       | None => OutOfFuel
       | Some None => Nothing
       | Some (Some o) =>
           let o := match o_kind (g o) with KHfDataset => o_ex1 (g o) | _ => Some o end in    (* 196-197 *)
           match o with
           | Some o => match o_kind (g o) with KHfIterable => Found o | _ => Nothing end     (* 199-201 *)
           | None => Nothing
           end
       end.
