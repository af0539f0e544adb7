(** Reading through the cache of one object ([kerch/feature/cache.py:99-180]):
    methods that compute a value from fixed parameters and may call one another
    through [_get].  Definitions only. *)
From Verif Require Import Base Cache.

Section Reader.
  Context {V : Type}.

  (** A method call: it returns or raises, and may change the cache. *)
  Definition reader (A : Type) : Type := cache V -> result A * cache V.
  Definition rret {A} (r : result A) : reader A := fun c => (r, c).
  Definition rbind {A B} (m : reader A) (f : A -> reader B) : reader B :=
    fun c => match m c with
             | (Ok a, c') => f a c'
             | (Err e, c') => (Err e, c')
             end.

  (** [self._get(key, fun=f, ...)] (cache.py:136-180) where [f] may itself read
      through the cache: a hit returns the stored value, a miss runs [f] and hands
      its outcome to [_save]. *)
  Definition rget (key : string) (a : get_args) (f : reader V) : reader V :=
    fun c =>
      match (if a_overwrite a then None else dget (c_entries c) key) with
      | Some e => (Ok (e_val e), c)
      | None =>
          match f c with
          | (Err e, c') => (Err e, c')
          | (Ok v, c') =>
              match save c' key (Ok v) a with
              | (Err e, c2) => (Err e, c2)
              | (Ok w, c2) => (Ok w, if a_destroy a then remove_from_cache c2 (KeyStr key) else c2)
              end
          end
      end.

  (** A mutation of an object that sits in the cache under [key]. *)
  Definition rpoke (key : string) (v : V) : reader unit :=
    fun c => match dget (c_entries c) key with
             | Some e => (Ok tt, with_entries c (dset (c_entries c) key
                                                      (Entry (e_level e) (e_persisting e) v)))
             | None => (Ok tt, c)
             end.
End Reader.
Arguments reader V A : clear implicits.
