Code with no model at all: the console scripts (`scripts/`), process creation and executable search of the simulators,
matplotlib and pandas output, `windows_short_names.py`, logging.
