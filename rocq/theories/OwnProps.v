(** OwnProps.v -- property C102, randomisers owned through pointers.  Statements only; the lemmas are in OwnProofs.v. *)
From Verif Require Import Base RandomModel OwnModel OwnSpec OwnProofs RandomProps.

(** ** C102: an object that is used through an interface class of the library may be owned through it too: releasing a
    unique_ptr to the interface destroys the object, whatever its class.

    Intended, for every class [dyn] derived from [i], one of RandomiserInterface, WritableInterface, WriterInterface:
      exists l, delete_through i dyn = Some l /\ properly_destroyed dyn l.
    It holds for WritableInterface and WriterInterface, whose destructors are virtual: *)
Theorem C102_writable_partial :
  forall i dyn : cls, i = WritableInterface \/ i = WriterInterface -> derived dyn i ->
  exists l, delete_through i dyn = Some l /\ properly_destroyed dyn l.
Proof. exact interface_deletes. Qed.
Print Assumptions C102_writable_partial.
(** a class of the user, two steps below WriterInterface *)
Example C102_writable_example :
  derived (UserClass 1 false (UserClass 0 false WriterInterface)) WriterInterface /\
  delete_through WriterInterface (UserClass 1 false (UserClass 0 false WriterInterface)) =
    Some [UserClass 1 false (UserClass 0 false WriterInterface); UserClass 0 false WriterInterface; WriterInterface].
Proof. split; [eapply der_step; [reflexivity|]; constructor; reflexivity | reflexivity]. Qed.

(** It fails for the randomisers, none of which has a virtual destructor: every program that creates one, of any
    class, by a unique_ptr to a base of that class that the library defines, has undefined behaviour when it releases it,
    whatever it did before and in between. *)
Theorem C102_interface_refuted :
  forall (T G Ds : Type) (next : G -> Z * G) (dmake : T -> T -> Ds) (ddraw : Ds -> draw (T * Ds))
    (c dyn : cls) (g : G) (k : nat) (a b : T) (p q : list (oop T)) (l : list (oout T)) (s' : ost G Ds),
  c = RandomiserInterface \/ c = RandomiserBase \/ c = UniformRandomiser -> derived dyn c ->
  (forall o, In o q -> ~ mentions k o) ->
  orun next dmake ddraw (p ++ ONew k dyn (OwnUnique c) a b :: q) (oinit g) = Ret l s' ->
  orun next dmake ddraw ((p ++ ONew k dyn (OwnUnique c) a b :: q) ++ [ORelease k]) (oinit g) = Ub UbDangling.
Proof. exact (fun T G Ds next dmake ddraw => through_interface next dmake ddraw). Qed.
Print Assumptions C102_interface_refuted.
(** the library's own randomiser, by a unique_ptr<RandomiserInterface<T>> *)
Example C102_interface_example :
  derived UniformRandomiser RandomiserInterface /\
  (exists s', orun lcg pair two_draws [ONew 0 UniformRandomiser (OwnUnique RandomiserInterface) (-5) 5; OGet 0]%Z (oinit 42%Z) =
     Ret [ODone; OVal (-1)%Z] s') /\
  orun lcg pair two_draws [ONew 0 UniformRandomiser (OwnUnique RandomiserInterface) (-5) 5; OGet 0; ORelease 0]%Z (oinit 42%Z) =
    Ub UbDangling.
Proof.
  split; [eapply der_step; [reflexivity|]; constructor; reflexivity|].
  split; [eexists; vm_compute; reflexivity | vm_compute; reflexivity].
Qed.

(** It holds for randomisers that are variables, are owned through their own class, by a shared_ptr that was created with
    their own class (whatever class it points to later), or through a class of the user with a virtual destructor: programs
    that use and release only what is there run, every release runs the destructors of the object once each from the most
    derived class up, and the values drawn are those of the program whose randomisers are variables never released. *)
Theorem C102_owned_partial :
  forall (T G Ds : Type) (next : G -> Z * G) (dmake : T -> T -> Ds) (ddraw : Ds -> draw (T * Ds)) (g : G) (p : list (oop T)),
  careful p ->
  exists l s' l2 s2, orun next dmake ddraw p (oinit g) = Ret l s' /\ rrun next dmake ddraw (as_variables p) (rinit g) = Ret l2 s2 /\
    drawn l = drawn_by_variables l2 /\ generator (o_rand s') = generator s2 /\
    (forall i k, nth_error p i = Some (ORelease k) ->
       exists d c, held k (firstn i p) None = Some d /\ nth_error l i = Some (OGone c) /\ properly_destroyed d c).
Proof. exact (fun T G Ds next dmake ddraw => careful_ok next dmake ddraw). Qed.
Print Assumptions C102_owned_partial.

(** a variable, a shared_ptr, and a class of the user with a virtual destructor that is derived from once more *)
Definition user_base : cls := UserClass 0 true UniformRandomiser.
Definition owned_program : list (oop Z) :=
  [ONew 0 UniformRandomiser OwnAuto (-5) 5; ONew 1 UniformRandomiser (OwnShared UniformRandomiser) 100 199;
   ONew 2 (UserClass 1 false user_base) (OwnUnique user_base) 7 9; OGet 0; OGet 1; OGet 2; ORelease 1; OGet 0; ORelease 2;
   ORelease 0]%Z.
Example C102_owned_careful : careful owned_program.
Proof.
  split.
  - intros i k dyn o a b H.
    do 11 (destruct i as [|i];
      [cbn in H; try discriminate; injection H as <- <- <- <- <-;
       first [exact I | left; reflexivity
             | right; split; [constructor; reflexivity | exists user_base; split; [left; reflexivity | reflexivity]]]|]).
    destruct i; discriminate.
  - intros i k H. do 11 (destruct i as [|i];
      [cbn in H; destruct H as [H|H]; try discriminate; injection H as <-; cbn; discriminate|]).
    destruct i; destruct H; discriminate.
Qed.
Example C102_owned_example :
  exists s', orun lcg pair two_draws owned_program (oinit 42%Z) =
    Ret [ODone; ODone; ODone; OVal (-1)%Z; OVal 194%Z; OVal 8%Z;
         OGone [UniformRandomiser; RandomiserBase; RandomiserInterface]; OVal 5%Z;
         OGone [UserClass 1 false user_base; user_base; UniformRandomiser; RandomiserBase; RandomiserInterface];
         OGone [UniformRandomiser; RandomiserBase; RandomiserInterface]] s'.
Proof. eexists. vm_compute. reflexivity. Qed.
