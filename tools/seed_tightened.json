{
 "H2": {"note": "the lemma that the cells of two threads are disjoint fails, so the theorems on the parallel loops, listed under theorems_not_reached, cannot be built"},
 "U3": {"note": "the lemma that the cells of two threads are disjoint fails, so the theorems on the parallel loops, listed under theorems_not_reached, cannot be built"},
 "U6": {"note": "the first expectation was wrong: C88 speaks of point masses and dipoles only; the theorems under theorems_failed state the broken claim"},
 "W1": {"note": "the first expectation was wrong: C41 stays true of the edited program; C18 and C67 state what breaks"},
 "Z1": {"note": "the first expectation was wrong: in the edited program the power of a float64 never raises, so the field part of C76 and C89 stay true of it; C67, C68, C74 and the point-mass part of C76 fail. Z1b is the edit that does break them"}
}
