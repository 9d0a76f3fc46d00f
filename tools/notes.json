{
 "C01": {
  "note": "Exact real arithmetic; the binary64 behaviour is C40/C44."
 },
 "C02": {
  "note": "Exact real arithmetic, with sin/cos/sqrt the real functions."
 },
 "C13": {
  "note": "For every arithmetic, exceptions included."
 },
 "C39": {
  "note": "Binary64 with any log/arctan mapping NaN to NaN; 'never a number' where the code may raise first."
 },
 "C42": {
  "note": "Needs log and arctan finite and of magnitude at most 2048 and 2 on their domain (hypotheses good_log, good_atan)."
 },
 "C43": {
  "note": "C43_limits records by computation that outside the ordinary range of C42 point functions and prism gradiometry can raise away from the source (underflow)."
 },
 "C44": {
  "note": "Relative error against the same model function executed in exact real arithmetic."
 },
 "C46": {
  "note": "Interleaving semantics at the granularity of array reads and writes (sequentially consistent memory; each cell is accessed by one thread only). (a)-(c) hold in every arithmetic, (d) is binary64."
 },
 "C47": {
  "note": "Exact arithmetic. Also proves that jacobian[i,j] is the derivative of the forward model with respect to density j."
 }
}