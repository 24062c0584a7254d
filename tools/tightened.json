{
 "mk_isurface: then Ok (sn, 0) -> then Ok (1, 0)": {
  "theorems": [
   "C05_directions"
  ],
  "note": "survived; C05_directions added, which fixes the tangent and the sign of the normal of every converted surface"
 },
 "vacuum: Simple 1%num 1%num 0%num -> Simple 1%num 1%num 1%num": {
  "theorems": [
   "C10_background"
  ],
  "note": "survived; C10_background added, which says what the cells outside every object are made of"
 },
 "tfsf_reset: (z (q_H q)) -> (q_H q)": {
  "theorems": [
   "C25_restart_partial"
  ],
  "note": "survived because C25 excluded TFSF sources; C25_restart_partial now covers them"
 },
 "expand: CH => [Hx; Hy] -> CH => [Hx]": {
  "theorems": [
   "C39_time_monitor",
   "C37_cadence"
  ],
  "note": "survived because both theorems named the components by expand itself; they now use asks/asked (SpecClock.v), and C37 states the records by tm_snapshot instead of tm_sample"
 },
 "to_real_volume: (to_real g (iv_a v)) (to_real g (iv_b v)) -> (to_real g (iv_b v)) (to_real g (iv_a v))": {
  "theorems": [
   "C01_volume_real",
   "C01_volume_double"
  ],
  "note": "survived; C01_volume_real and C01_volume_double added, which say where both corners of a converted volume lie"
 },
 "tm_half: (upd_nth i (snd r) (f_tmons s)) -> (f_tmons s)": {
  "theorems": [
   "C39_interrupted"
  ],
  "note": "survived; C39_interrupted added, which says what a time monitor knows after an interrupted write"
 },
 "force_pay: map fst F ++ map snd F -> map snd F ++ map fst F": {
  "theorems": [
   "C64_forces"
  ],
  "note": "survived; C64_forces added, which says where each component of a force lies in the dataset"
 },
 "circle: false (frequencies 200) -> false []": {
  "theorems": [
   "C62_mie_spectra",
   "C62_mie_simple_spectra"
  ],
  "note": "survived; the spectra theorems added, which say how many values the programs leave in the file"
 },
 "tm_left: tm_left g F f' m' l' -> tm_left g F f' m l'": {
  "theorems": [
   "C39_interrupted"
  ],
  "note": "survived; C39_interrupted added, which says what a time monitor knows after an interrupted write"
 },
 "re_mul_conj: snd z * (- snd w) -> snd z * snd w": {
  "theorems": [],
  "note": "not noticed and of no effect on results: the product is only used for an entry of the stress tensor that is multiplied by zero"
 },
 "pt_attach: dft_add d k 1 -> dft_add d k 0": {
  "theorems": [],
  "note": "not noticed and not observable: every update with a point monitor is undefined (C53)"
 }
}